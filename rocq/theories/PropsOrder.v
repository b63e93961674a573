(** Property C81: operations of a circuit in another order. *)
From Coq Require Import List NArith ZArith Arith String Bool Lia Reals Lra Permutation.
From Verif Require Import Py CRing Cplx KernelSpec SimModel SimSpec SimReal SimProofs2 MeasureSpec SampleSpec UnitarySpec CallSpec GateModel StateModel BranchSpec RegisterModel
  WorldModel WorldSpec WorldSpec4 WorldCheck LinkModel LinkSpec PropsLink SessionModel SessionSpec PropsSession PropsBranch OrderSpec.
From Verif Require PropsSim SimProofs3 OrderProofs2 OrderProofs3 OrderProofs4.
Import ListNotations.
Local Open Scope nat_scope.

(** ** Simulations *)

(** If only independent operations change their order, and no two measurements, then both simulations use the same
    random numbers, leave the same bits and end in the same state. *)
Theorem C81_simulated c ops : wf_circ c -> unitary_circ c -> (SimModel.num_qubits Ccring c <= 30)%N -> rearranged false (sc_ops Ccring c) ops ->
  forall rnd (m m' : SimModel.mem Ccring), (forall k, uniform (rnd k)) -> (forall b, m_bits Ccring m' b = m_bits Ccring m b) -> m_pos Ccring m' = m_pos Ccring m ->
  exists m1 a m2 a', simulate_C rnd c false false m = (m1, Ok (SVec Ccring a)) /\ simulate_C rnd (mkScirc Ccring (sc_qubits Ccring c) ops) false false m' = (m2, Ok (SVec Ccring a')) /\
    (forall b, m_bits Ccring m2 b = m_bits Ccring m1 b) /\ m_pos Ccring m2 = m_pos Ccring m1 /\ forall i, (i < 2 ^ SimModel.num_qubits Ccring c)%N -> a' i = a i.
Proof. intros Hc Hu Hn H. exact (OrderProofs2.reordered_simulate c ops Hc Hu Hn (OrderProofs4.rearranged_reordered false _ _ H)). Qed.
Print Assumptions C81_simulated.

(** If measurements may change places too, the branches of both circuits come in pairs: every branch of either circuit
    is in exactly one pair, and both branches of a pair have the same outcomes up to order, the same bits, the same
    state and the same probability [p]. *)
Theorem C81_branches c ops : wf_circ c -> unitary_circ c -> rearranged true (sc_ops Ccring c) ops -> forall bits v,
  let d := mkScirc Ccring (sc_qubits Ccring c) ops in
  exists L : list (list bool * list bool * R),
    NoDup (map (fun x => fst (fst x)) L) /\ NoDup (map (fun x => snd (fst x)) L) /\
    (forall h, In h (map (fun x => fst (fst x)) L) <-> exists bits' w, branch c (sc_ops Ccring c) h bits v bits' w) /\
    (forall h, In h (map (fun x => snd (fst x)) L) <-> exists bits' w, branch d (sc_ops Ccring d) h bits v bits' w) /\
    (forall h h' p, In (h, h', p) L -> Permutation h h' /\
       forall bits' w, branch c (sc_ops Ccring c) h bits v bits' w -> branch d (sc_ops Ccring d) h' bits v bits' w /\ weight (SimModel.num_qubits Ccring c) w = p) /\
    Rsum L snd = weight (SimModel.num_qubits Ccring c) v.
Proof. exact (OrderProofs4.rearranged_branches c ops). Qed.
Print Assumptions C81_branches.

(** The density matrices are the same. *)
Theorem C81_density c ops : wf_circ c -> unitary_circ c -> (2 * SimModel.num_qubits Ccring c <= 30)%N -> measurement_free c -> rearranged false (sc_ops Ccring c) ops ->
  forall rnd (m : SimModel.mem Ccring) s s' le le', (forall k, uniform (rnd k)) ->
  let n := SimModel.num_qubits Ccring c in
  exists rho rho', simulate_set rnd c true le m s = (m, mkCst None (Some (mkArr [2 ^ n; 2 ^ n]%N rho)), Ok tt) /\
    simulate_set rnd (mkScirc Ccring (sc_qubits Ccring c) ops) true le' m s' = (m, mkCst None (Some (mkArr [2 ^ n; 2 ^ n]%N rho')), Ok tt) /\
    forall r k, (r < 2 ^ n)%N -> (k < 2 ^ n)%N -> rho' (rowcol n r k) = rho (rowcol n r k).
Proof. intros Hc Hu Hn Hm H. exact (OrderProofs4.reordered_density c ops Hc Hu Hn Hm (OrderProofs4.rearranged_reordered false _ _ H)). Qed.
Print Assumptions C81_density.

(** ** Programs *)

(** Two circuits of a program on the same qubits, with the operations in another order.  Full statement: for all programs;
    partial since the operations must be of the library, with numbers as parameters and bits for measurements
    ([own_ok], [ready]). *)
Theorem C81_program_partial ptrue peqb extra p s c d x y sc sd :
  sexecutes ptrue peqb (own_ok R) p (begin (library_classes ++ extra)%list) -> svisits ptrue peqb p (begin (library_classes ++ extra)%list) s -> small R (s_w s) ->
  nth_error (w_circ (s_w s)) c = Some x -> nth_error (w_circ (s_w s)) d = Some y ->
  (forall o t, In o (c_ops x) -> nth_error (w_op (s_w s)) o = Some t -> ready (s_w s) x o t) ->
  (forall o t, In o (c_ops y) -> nth_error (w_op (s_w s)) o = Some t -> ready (s_w s) y o t) ->
  let n := List.length (circuit_qubits x) in 1 <= n -> n <= 30 -> List.length (circuit_qubits y) = n ->
  seen (s_w s) c = Some sc -> seen (s_w s) d = Some sd -> sc_qubits Ccring sd = sc_qubits Ccring sc -> rearranged false (sc_ops Ccring sc) (sc_ops Ccring sd) ->
  forall rnd, (forall k, uniform (rnd k)) -> exists s1 s2 a a', sim c false false rnd s = (s1, Ok tt) /\ sim d false false rnd s = (s2, Ok tt) /\
    s_st s1 c = mkCst (Some (mkArr [2 ^ N.of_nat n]%N a)) None /\ s_st s2 d = mkCst (Some (mkArr [2 ^ N.of_nat n]%N a')) None /\
    (forall b, b < List.length (w_bit (s_w s)) -> bit_value R (s_w s2) b = bit_value R (s_w s1) b) /\
    forall i, (i < 2 ^ N.of_nat n)%N -> a' i = a i.
Proof. intros He Hv Hs. exact (OrderProofs4.session_reordered ptrue peqb extra p s He Hv Hs c d x y sc sd). Qed.
Print Assumptions C81_program_partial.

(** ** A program with two circuits on the same two qubits and one bit: H on the first, X on the second, measure the first,
    H on the second, Z on the second if the outcome is 1; in the other circuit the second qubit gets X and H first. *)
Definition turns : sprog :=
  does [CNew _ false (Some 2) (Some 1); CNew _ false None None; CAddQubit _ 1 (AItem 0) LNone; CAddQubit _ 1 (AItem 1) LNone; CAddBit _ 1 (AItem 0) LNone;
        CConstruct 4 None (AQ (Some [IQubit 0])); CConstruct 1 None (AQ (Some [IQubit 1])); CConstruct 22 None (AQ (Some [IQubit 0])); CStore _ 2 [IBit 0];
        CConstruct 4 None (AQ (Some [IQubit 1])); CConstruct 3 None (AQ (Some [IQubit 1])); CCond _ 4 [IBit 0];
        CAppend _ 0 0; CAppend _ 0 1; CAppend _ 0 2; CAppend _ 0 3; CAppend _ 0 4;
        CAppend _ 1 1; CAppend _ 1 3; CAppend _ 1 0; CAppend _ 1 2; CAppend _ 1 4].
Definition turned : session := fst (srun rtrue req turns (begin library_classes)).
Definition turned_world : world R := ltac:(let w := eval vm_compute in (s_w turned) in exact w).
Lemma turned_eq : s_w turned = turned_world.
Proof. vm_compute. reflexivity. Qed.
Definition turn (i : nat) : sop Ccring :=
  match i with
  | 0 => mkSop Ccring (gate_kind (GOne GHadamard)) (Some [0]) []
  | 1 => mkSop Ccring (gate_kind (GOne GX)) (Some [1]) []
  | 2 => mkSop Ccring (KMeasure Ccring 2 (Some [0])) (Some [0]) []
  | 3 => mkSop Ccring (gate_kind (GOne GHadamard)) (Some [1]) []
  | _ => mkSop Ccring (gate_kind (GOne GZ)) (Some [1]) [0]
  end.

(** All pairs of a list, in order. *)
Fixpoint pairs (l : list nat) : list (nat * nat) := match l with [] => [] | x :: r => map (pair x) r ++ pairs r end.
Lemma before_pairs l i j : before l i j -> In (i, j) (pairs l).
Proof.
  intros (a & b & d & ->). induction a as [|x a IH]; cbn [app pairs]; apply in_or_app; [left|now right].
  apply in_map, in_or_app. right. now left.
Qed.

Lemma turns_rearranged : rearranged false (map turn [0; 1; 2; 3; 4]) (map turn [1; 3; 0; 2; 4]).
Proof.
  exists turn, [0; 1; 2; 3; 4], [1; 3; 0; 2; 4]. split; [reflexivity|]. split; [reflexivity|]. split; [repeat constructor; cbn; intuition discriminate|]. split.
  - apply NoDup_Permutation; [repeat constructor; cbn; intuition discriminate..|]. intros x. cbn. tauto.
  - intros i j H1 H2. apply before_pairs in H1, H2. cbn in H1, H2.
    assert (K : (i, j) = (0, 1) \/ (i, j) = (0, 3) \/ (i, j) = (2, 3)).
    { repeat (destruct H1 as [H1|H1]; [injection H1 as <- <-; repeat (destruct H2 as [H2|H2]; [try discriminate H2|]); try destruct H2; auto|]). destruct H1. }
    destruct K as [[= -> ->]|[[= -> ->]|[= -> ->]]]; (split; [|cbn; discriminate]); (split; [|split; [|split]]); cbn; try tauto.
    all: intros qs qs' q [= <-] [= <-] [<-|[]] [H|[]]; discriminate H.
Qed.

Example C81_case :
  sexecutes rtrue req (own_ok R) turns (begin (library_classes ++ [])%list) /\
  svisits rtrue req turns (begin (library_classes ++ [])%list) turned /\ small R (s_w turned) /\
  seen (s_w turned) 0 = Some (mkScirc Ccring [0; 1] (map turn [0; 1; 2; 3; 4])) /\ seen (s_w turned) 1 = Some (mkScirc Ccring [0; 1] (map turn [1; 3; 0; 2; 4])) /\
  rearranged false (map turn [0; 1; 2; 3; 4]) (map turn [1; 3; 0; 2; 4]) /\
  exists x y, nth_error (w_circ (s_w turned)) 0 = Some x /\ nth_error (w_circ (s_w turned)) 1 = Some y /\
    List.length (circuit_qubits x) = 2 /\ List.length (circuit_qubits y) = 2 /\
    (forall o t, In o (c_ops x) -> nth_error (w_op (s_w turned)) o = Some t -> ready (s_w turned) x o t) /\
    (forall o t, In o (c_ops y) -> nth_error (w_op (s_w turned)) o = Some t -> ready (s_w turned) y o t).
Proof.
  rewrite app_nil_r. split; [|split; [|split; [|split; [|split; [|split]]]]].
  - vm_compute. repeat split; auto; intros H; try destruct H; try discriminate.
  - right. left. reflexivity.
  - rewrite turned_eq. split; vm_compute; reflexivity.
  - rewrite turned_eq. reflexivity.
  - rewrite turned_eq. reflexivity.
  - exact turns_rearranged.
  - rewrite turned_eq. eexists _, _. split; [reflexivity|]. split; [reflexivity|]. split; [reflexivity|]. split; [reflexivity|].
    split; intros o t Ho Et; cbn in Ho; destruct Ho as [<-|[<-|[<-|[<-|[<-|[]]]]]]; cbn in Et; injection Et as <-; try is_ready.
    all: constructor; cbn; [repeat constructor| | | |].
    all: try (intros l [= <-]; repeat constructor; eexists; reflexivity).
    all: try (eexists; split; [reflexivity|]; intros k [= <-]; split; [intros _; repeat (apply NoDup_cons; [cbn; intuition discriminate|]); apply NoDup_nil|intros [H|H]; try discriminate H; reflexivity]).
    all: try (intros k [= <-]; discriminate).
    all: try (intros k [= <-] _; split; [discriminate|intros _; repeat constructor; eexists; reflexivity]).
    all: try discriminate.
Qed.

(** ** Full statement: with the same random numbers, measurements can change places too.  False: after H on the first
    qubit, the numbers 1/4 and 3/4 give outcome 0 for it if it is measured first, and 1 if it is measured second. *)
Definition first_look : sop Ccring := mkSop Ccring (KMeasure Ccring 0 (Some [0])) (Some [0]) [].
Definition second_look : sop Ccring := mkSop Ccring (KMeasure Ccring 1 (Some [1])) (Some [1]) [].
Definition looks (b : bool) : scirc Ccring := mkScirc Ccring [0; 1] (turn 0 :: if b then [first_look; second_look] else [second_look; first_look]).
Definition quarters (k : nat) : R := match k with 0 => 1 / 4 | _ => 3 / 4 end.
Definition unset : SimModel.mem Ccring := mkMem Ccring (fun _ => None) 0 (fun _ => None) (fun _ => []) 0.


Lemma looks_in b o : In o (sc_ops Ccring (looks b)) -> In o [turn 0; first_look; second_look].
Proof. destruct b; cbn; tauto. Qed.
Lemma looks_wf b : wf_circ (looks b).
Proof.
  split; [repeat constructor; cbn; intuition discriminate|]. split; [discriminate|]. intros o Ho. apply looks_in in Ho. destruct Ho as [<-|[<-|[<-|[]]]].
  - exists [0]. split; [reflexivity|]. split; [intros q [<-|[]]; now left|]. split; [repeat constructor; cbn; auto|]. split; [intros k [= <-]; reflexivity|cbn; auto].
  - exists [0]. split; [reflexivity|]. split; [intros q [<-|[]]; now left|]. split; [discriminate|]. split; [discriminate|exact I].
  - exists [1]. split; [reflexivity|]. split; [intros q [<-|[]]; right; now left|]. split; [discriminate|]. split; [discriminate|exact I].
Qed.
Lemma looks_unitary b : unitary_circ (looks b).
Proof. intros o Ho. apply looks_in in Ho. destruct Ho as [<-|[<-|[<-|[]]]]; [exact (PropsSim.C29_library_gates (GOne GHadamard))|exact I|exact I]. Qed.
Lemma looks_rearranged : rearranged true (sc_ops Ccring (looks true)) (sc_ops Ccring (looks false)).
Proof.
  exists (fun i => match i with 0 => turn 0 | 1 => first_look | _ => second_look end), [0; 1; 2], [0; 2; 1].
  split; [reflexivity|]. split; [reflexivity|]. split; [repeat constructor; cbn; intuition discriminate|]. split.
  - apply NoDup_Permutation; [repeat constructor; cbn; intuition discriminate..|]. intros x. cbn. tauto.
  - intros i j H1 H2. apply before_pairs in H1, H2. cbn in H1, H2.
    assert (K : (i, j) = (1, 2)).
    { repeat (destruct H1 as [H1|H1]; [injection H1 as <- <-; repeat (destruct H2 as [H2|H2]; [try discriminate H2|]); try destruct H2; auto|]). destruct H1. }
    injection K as -> ->. split; [|auto]. split; [|split; [|split]]; cbn; try tauto.
    intros b [<-|[]] [H|[]]. discriminate H.
Qed.
Lemma quarters_uniform k : uniform (quarters k).
Proof. unfold uniform, quarters. destruct k; lra. Qed.

Lemma look_placed b : placed (looks b) first_look [0%N] /\ placed (looks b) second_look [1%N] /\ placed (looks b) (turn 0) [0%N].
Proof. split; [exists [0]|split; [exists [1]|exists [0]]]; (split; [reflexivity|repeat constructor]). Qed.
Lemma free_look m o : In o [turn 0; first_look; second_look] -> ~ some_zero (m_bits Ccring m) (so_cond Ccring o).
Proof. intros [<-|[<-|[<-|[]]]] (b & [] & _). Qed.
Lemma half_prob v t : (forall i, (i < 2 ^ 2)%N -> v i = half_state i) -> prob false 2 0 t v = (1 / 2)%R /\ prob false 2 1 false v = 1%R.
Proof.
  intros H. assert (Q : (sqrt 2 / 2 * (sqrt 2 / 2) = 1 / 2)%R) by (pose proof (sqrt_sqrt 2 ltac:(lra)); lra).
  unfold prob. split.
  - destruct t.
    + change (filter _ _) with [2; 3]%N. unfold Rsum. cbn [fold_right]. rewrite !H by reflexivity. unfold half_state. cbn [N.eqb Pos.eqb]. unfold Cnorm2, RtoC, C0, Re, Im; cbn [fst snd]. lra.
    + change (filter _ _) with [0; 1]%N. unfold Rsum. cbn [fold_right]. rewrite !H by reflexivity. unfold half_state. cbn [N.eqb Pos.eqb]. unfold Cnorm2, RtoC, C0, Re, Im; cbn [fst snd]. lra.
  - change (filter _ _) with [0; 2]%N. unfold Rsum. cbn [fold_right]. rewrite !H by reflexivity. unfold half_state. cbn [N.eqb Pos.eqb]. unfold Cnorm2, RtoC, C0, Re, Im; cbn [fst snd]. lra.
Qed.

Lemma look_start : forall b, exists m w, run_pure_C quarters (looks b) false [turn 0] unset (zero_state Ccring) = (m, Ok w) /\ m = unset /\
    SimSpec.normalised 2 w /\ forall i, (i < 2 ^ 2)%N -> w i = half_state i.
Proof.
  intros b. pose proof (looks_wf b) as (A1 & _ & A3). assert (L30 : (SimModel.num_qubits Ccring (looks b) <= 30)%N) by (cbn; lia).
    assert (Hi : In (turn 0) (sc_ops Ccring (looks b))) by (destruct b; now left).
    destruct (OrderProofs2.step_run (looks b) A1 L30 quarters quarters_uniform (turn 0) unset (zero_state Ccring) (conj (A3 _ Hi) (looks_unitary b _ Hi)) (SimProofs3.zero_normalised _)) as (m & w & E & Nw & S).
    exists m, w. split; [exact E|]. destruct S as [Z|ts _ _ Hp Hm Hw|mid st ts os _ Hk]; [destruct (free_look _ _ (or_introl eq_refl) Z)| |discriminate Hk].
    split; [exact Hm|]. split; [exact Nw|]. pose proof (placed_unique Ccring _ _ ts [0%N] A1 Hp (proj2 (proj2 (look_placed b)))). subst ts.
    intros i Hi'. etransitivity; [exact (Hw i Hi')|]. destruct (four i Hi') as [->|[->|[->| ->]]]; cbv -[IZR Rmult Rplus Rminus Ropp sqrt Rinv Rdiv]; f_equal; lra.
Qed.
Lemma look_step : forall b o t q m v, In (o, t, q) [(first_look, 0%N, 0); (second_look, 1%N, 1)] -> SimSpec.normalised 2 v ->
    exists m1 w r, run_pure_C quarters (looks b) false [o] m v = (m1, Ok w) /\ SimSpec.normalised 2 w /\
      (r = false <-> (quarters (m_pos Ccring m) < prob false 2 t false v)%R) /\
      (forall i, (i < 2 ^ 2)%N -> w i = if Bool.eqb (qbit false 2 i t) r then Cmul (RtoC (1 / sqrt (prob false 2 t r v))) (v i) else C0) /\
      m_bits Ccring m1 q = Some r /\ (forall x, x <> q -> m_bits Ccring m1 x = m_bits Ccring m x) /\ m_pos Ccring m1 = Datatypes.S (m_pos Ccring m).
Proof.
  intros b o t q m v Ho Hv. pose proof (looks_wf b) as (A1 & _ & A3). assert (L30 : (SimModel.num_qubits Ccring (looks b) <= 30)%N) by (cbn; lia).
    assert (Hi : In o (sc_ops Ccring (looks b))) by (destruct b, Ho as [[= <- _ _]|[[= <- _ _]|[]]]; cbn; auto).
    destruct (OrderProofs2.step_run (looks b) A1 L30 quarters quarters_uniform o m v (conj (A3 _ Hi) (looks_unitary b _ Hi)) Hv) as (m1 & w & E & Nw & S).
    assert (Hp : placed (looks b) o [t]) by (destruct (look_placed b) as (P1 & P2 & _), Ho as [[= <- <- _]|[[= <- <- _]|[]]]; assumption).
    assert (Hk : exists mid, so_kind Ccring o = KMeasure Ccring mid (Some [q])) by (destruct Ho as [[= <- _ <-]|[[= <- _ <-]|[]]]; eexists; reflexivity). destruct Hk as (mid' & Hk').
    destruct S as [Z|ts _ Em|mid st ts os _ Hk Hp' Hcol Hb Hpos]; [exfalso; revert Z; apply free_look; eapply looks_in; exact Hi|rewrite Hk' in Em; discriminate Em|].
    pose proof (placed_unique Ccring _ _ ts [t] A1 Hp' Hp). subst ts. rewrite Hk' in Hk. injection Hk as <- <-.
    cbn [List.length seq map] in Hcol. inversion Hcol as [|? ? ? ? r os' ? v' ? Hr _ Hv' Hrest]; subst. inversion Hrest as [? ? Hw| ]; subst.
    exists m1, w, r. split; [exact E|]. split; [exact Nw|]. split; [exact Hr|]. split; [intros i Hi'; etransitivity; [exact (Hw i Hi')|exact (Hv' i Hi')]|].
    split; [rewrite Hb; cbn; now rewrite Nat.eqb_refl|]. split; [|cbn in Hpos; lia].
    intros x Hx. rewrite Hb. cbn. now apply Nat.eqb_neq in Hx as ->.
Qed.

Theorem C81_same_numbers_refuted : exists c ops rnd m m1 a m2 a', wf_circ c /\ unitary_circ c /\ rearranged true (sc_ops Ccring c) ops /\ (forall k, uniform (rnd k)) /\
  simulate_C rnd c false false m = (m1, Ok (SVec Ccring a)) /\ simulate_C rnd (mkScirc Ccring (sc_qubits Ccring c) ops) false false m = (m2, Ok (SVec Ccring a')) /\
  m_bits Ccring m1 0 = Some false /\ m_bits Ccring m2 0 = Some true.
Proof.
  exists (looks true), (sc_ops Ccring (looks false)), quarters, unset.
  destruct (look_start true) as (m1 & w1 & E1 & -> & N1 & H1). destruct (look_step true first_look 0%N 0 unset w1 (or_introl eq_refl) N1) as (m2 & w2 & r2 & E2 & N2 & R2 & _ & B2 & _ & _).
  destruct (look_step true second_look 1%N 1 m2 w2 (or_intror (or_introl eq_refl)) N2) as (m3 & w3 & r3 & E3 & _ & _ & _ & _ & B3 & _).
  destruct (look_start false) as (k1 & x1 & F1 & -> & M1 & G1). destruct (look_step false second_look 1%N 1 unset x1 (or_intror (or_introl eq_refl)) M1) as (k2 & x2 & s2 & F2 & M2 & S2 & X2 & _ & _ & P2).
  destruct (look_step false first_look 0%N 0 k2 x2 (or_introl eq_refl) M2) as (k3 & x3 & s3 & F3 & _ & S3 & _ & C3 & _ & _).
  exists m3, w3, k3, x3. split; [apply looks_wf|]. split; [apply looks_unitary|]. split; [exact looks_rearranged|]. split; [exact quarters_uniform|].
  assert (A : simulate_C quarters (looks true) false false unset = (m3, Ok (SVec Ccring w3))).
  { change (simulate_C quarters (looks true) false false unset) with (let (m', r) := run_pure_C quarters (looks true) false (turn 0 :: [first_look; second_look]) unset (zero_state Ccring) in (m', let? v := r in Ok (SVec Ccring v))).
    rewrite (OrderProofs2.run_cons (looks true) quarters (turn 0)), E1, (OrderProofs2.run_cons (looks true) quarters first_look), E2, E3. reflexivity. }
  assert (B : simulate_C quarters (looks false) false false unset = (k3, Ok (SVec Ccring x3))).
  { change (simulate_C quarters (looks false) false false unset) with (let (m', r) := run_pure_C quarters (looks false) false (turn 0 :: [second_look; first_look]) unset (zero_state Ccring) in (m', let? v := r in Ok (SVec Ccring v))).
    rewrite (OrderProofs2.run_cons (looks false) quarters (turn 0)), F1, (OrderProofs2.run_cons (looks false) quarters second_look), F2, F3. reflexivity. }
  split; [exact A|]. split; [exact B|]. split.
  - rewrite B3 by discriminate. rewrite B2. f_equal. apply R2. rewrite (proj1 (half_prob w1 false H1)). cbn. lra.
  - rewrite C3. f_equal. rewrite P2 in S3. cbn [quarters unset m_pos] in S3.
    assert (s2 = false) by (apply S2; rewrite (proj2 (half_prob x1 false G1)); cbn; lra). subst s2.
    assert (G2 : forall i, (i < 2 ^ 2)%N -> x2 i = half_state i).
    { intros i Hi. rewrite (X2 i Hi), (proj2 (half_prob x1 false G1)), (G1 i Hi), sqrt_1.
      destruct (four i Hi) as [->|[->|[->| ->]]]; cbn -[Rdiv sqrt RtoC]; unfold Cmul, RtoC, C0; cbn [fst snd Re Im]; unfold Re, Im; cbn [fst snd]; try reflexivity; f_equal; field. }
    rewrite (proj1 (half_prob x2 false G2)) in S3. destruct s3; [reflexivity|]. exfalso. assert (3 / 4 < 1 / 2)%R by (apply S3; reflexivity). lra.
Qed.
Print Assumptions C81_same_numbers_refuted.

(** Property C82: measurements put later, split and merged. *)
From Coq Require Import List NArith ZArith Arith String Bool Lia Reals Lra Permutation.
From Verif Require Import Py CRing Cplx KernelSpec SimModel SimSpec SimReal SimProofs2 MeasureSpec SampleSpec UnitarySpec CallSpec GateModel StateModel BranchSpec RegisterModel
  WorldModel WorldSpec WorldSpec4 WorldCheck LinkModel LinkSpec PropsLink SessionModel SessionSpec PropsSession PropsBranch OrderSpec DeferSpec.
From Verif Require PropsSim OrderProofs3 DeferProofs3.
Import ListNotations.
Local Open Scope nat_scope.

(** ** Simulations *)

(** Gates under the condition of an outcome become controlled gates before the measurement, neighbouring measurements
    become one, independent operations change places (not two measurements), in any number and either way: both
    simulations use the same random numbers, leave the same bits and end in the same state. *)
Theorem C82_simulated c ops : wf_circ c -> unitary_circ c -> (SimModel.num_qubits Ccring c <= 30)%N -> remeasured false (sc_ops Ccring c) ops ->
  forall rnd (m m' : SimModel.mem Ccring), (forall k, uniform (rnd k)) -> (forall b, m_bits Ccring m' b = m_bits Ccring m b) -> m_pos Ccring m' = m_pos Ccring m ->
  exists m1 a m2 a', simulate_C rnd c false false m = (m1, Ok (SVec Ccring a)) /\ simulate_C rnd (mkScirc Ccring (sc_qubits Ccring c) ops) false false m' = (m2, Ok (SVec Ccring a')) /\
    (forall b, m_bits Ccring m2 b = m_bits Ccring m1 b) /\ m_pos Ccring m2 = m_pos Ccring m1 /\ forall i, (i < 2 ^ SimModel.num_qubits Ccring c)%N -> a' i = a i.
Proof. exact (DeferProofs3.remeasured_simulate c ops). Qed.
Print Assumptions C82_simulated.

(** If measurements may change places too, the branches of both circuits come in pairs with the same outcomes up to order,
    the same bits, the same state and the same probability. *)
Theorem C82_branches c ops : wf_circ c -> unitary_circ c -> remeasured true (sc_ops Ccring c) ops -> forall bits v,
  let d := mkScirc Ccring (sc_qubits Ccring c) ops in
  exists L : list (list bool * list bool * R),
    NoDup (map (fun x => fst (fst x)) L) /\ NoDup (map (fun x => snd (fst x)) L) /\
    (forall h, In h (map (fun x => fst (fst x)) L) <-> exists bits' w, branch c (sc_ops Ccring c) h bits v bits' w) /\
    (forall h, In h (map (fun x => snd (fst x)) L) <-> exists bits' w, branch d (sc_ops Ccring d) h bits v bits' w) /\
    (forall h h' p, In (h, h', p) L -> Permutation h h' /\
       forall bits' w, branch c (sc_ops Ccring c) h bits v bits' w -> branch d (sc_ops Ccring d) h' bits v bits' w /\ weight (SimModel.num_qubits Ccring c) w = p) /\
    Rsum L snd = weight (SimModel.num_qubits Ccring c) v.
Proof. exact (DeferProofs3.remeasured_branches c ops). Qed.
Print Assumptions C82_branches.

(** A measurement of the same qubits just after a measurement gives the same outcomes, whatever the random numbers, and
    leaves the state as it was. *)
Theorem C82_repeated c A mid mid' qs bs bs' : wf_circ c -> unitary_circ c -> (SimModel.num_qubits Ccring c <= 30)%N ->
  sc_ops Ccring c = (A ++ [measures mid qs bs []; measures mid' qs bs' []])%list -> List.length bs = List.length qs -> List.length bs' = List.length qs ->
  NoDup bs -> NoDup bs' -> (forall b, In b bs -> ~ In b bs') ->
  forall rnd (m : SimModel.mem Ccring), (forall k, uniform (rnd k)) ->
  exists m1 a m2 a', simulate_C rnd c false false m = (m1, Ok (SVec Ccring a)) /\
    simulate_C rnd (mkScirc Ccring (sc_qubits Ccring c) (A ++ [measures mid qs bs []])%list) false false m = (m2, Ok (SVec Ccring a')) /\
    (forall j b b', nth_error bs j = Some b -> nth_error bs' j = Some b' -> m_bits Ccring m1 b <> None /\ m_bits Ccring m1 b' = m_bits Ccring m1 b) /\
    (forall b, ~ In b bs' -> m_bits Ccring m1 b = m_bits Ccring m2 b) /\ forall i, (i < 2 ^ SimModel.num_qubits Ccring c)%N -> a i = a' i.
Proof. exact (DeferProofs3.measured_again c A mid mid' qs bs bs'). Qed.
Print Assumptions C82_repeated.

(** ** Programs *)

(** Two circuits of a program on the same qubits, one made from the other by such changes.  Full statement: for all
    programs; partial since the operations must be of the library, with numbers as parameters and bits for measurements
    ([own_ok], [ready]). *)
Theorem C82_program_partial ptrue peqb extra p s c d x y sc sd :
  sexecutes ptrue peqb (own_ok R) p (begin (library_classes ++ extra)%list) -> svisits ptrue peqb p (begin (library_classes ++ extra)%list) s -> small R (s_w s) ->
  nth_error (w_circ (s_w s)) c = Some x -> nth_error (w_circ (s_w s)) d = Some y ->
  (forall o t, In o (c_ops x) -> nth_error (w_op (s_w s)) o = Some t -> ready (s_w s) x o t) ->
  (forall o t, In o (c_ops y) -> nth_error (w_op (s_w s)) o = Some t -> ready (s_w s) y o t) ->
  let n := List.length (circuit_qubits x) in 1 <= n -> n <= 30 -> List.length (circuit_qubits y) = n ->
  seen (s_w s) c = Some sc -> seen (s_w s) d = Some sd -> sc_qubits Ccring sd = sc_qubits Ccring sc -> remeasured false (sc_ops Ccring sc) (sc_ops Ccring sd) ->
  forall rnd, (forall k, uniform (rnd k)) -> exists s1 s2 a a', sim c false false rnd s = (s1, Ok tt) /\ sim d false false rnd s = (s2, Ok tt) /\
    s_st s1 c = mkCst (Some (mkArr [2 ^ N.of_nat n]%N a)) None /\ s_st s2 d = mkCst (Some (mkArr [2 ^ N.of_nat n]%N a')) None /\
    (forall b, b < List.length (w_bit (s_w s)) -> bit_value R (s_w s2) b = bit_value R (s_w s1) b) /\
    forall i, (i < 2 ^ N.of_nat n)%N -> a' i = a i.
Proof. intros He Hv Hs. exact (DeferProofs3.session_remeasured ptrue peqb extra p s He Hv Hs c d x y sc sd). Qed.
Print Assumptions C82_program_partial.

(** ** A program with two circuits on the same two qubits and two bits: the first has H on the first qubit, measures it
    into the first bit, has X on the second qubit if the outcome is 1 and measures the second qubit into the second bit;
    the second has H, CX, and one measurement of both qubits. *)
Definition waits : sprog :=
  does [CNew _ false (Some 2) (Some 2); CNew _ false None None; CAddQubit _ 1 (AItem 0) LNone; CAddQubit _ 1 (AItem 1) LNone; CAddBit _ 1 (AItem 0) LNone; CAddBit _ 1 (AItem 1) LNone;
        CConstruct 4 None (AQ (Some [IQubit 0])); CConstruct 22 None (AQ (Some [IQubit 0])); CStore _ 1 [IBit 0];
        CConstruct 1 None (AQ (Some [IQubit 1])); CCond _ 2 [IBit 0]; CConstruct 22 None (AQ (Some [IQubit 1])); CStore _ 3 [IBit 1];
        CConstruct 11 None (ACT (Some [IQubit 0]) (Some [IQubit 1])); CConstruct 22 None (AQ (Some [IQubit 0; IQubit 1])); CStore _ 5 [IBit 0; IBit 1];
        CAppend _ 0 0; CAppend _ 0 1; CAppend _ 0 2; CAppend _ 0 3;
        CAppend _ 1 0; CAppend _ 1 4; CAppend _ 1 5].
Definition waited : session := fst (srun rtrue req waits (begin library_classes)).
Definition waited_world : world R := ltac:(let w := eval vm_compute in (s_w waited) in exact w).
Lemma waited_eq : s_w waited = waited_world.
Proof. vm_compute. reflexivity. Qed.
Definition h_first : sop Ccring := mkSop Ccring (gate_kind (GOne GHadamard)) (Some [0]) [].
Definition x_matrix : N -> N -> C := match gate_kind (GOne GX) with KOther _ _ m => m | _ => fun _ _ => C0 end.
Definition early : list (sop Ccring) := [h_first; measures 1 [0] [0] []; acts x_matrix 1 [0]; measures 3 [1] [1] []].
Definition late : list (sop Ccring) := [h_first; acts_if x_matrix 0 1 []; measures 5 [0; 1] [0; 1] []].
Lemma early_late : remeasured false early late.
Proof.
  apply rm_cons. apply rm_trans with [acts_if x_matrix 0 1 []; measures 1 [0] [0] []; measures 3 [1] [1] []].
  - apply rm_defer; [discriminate|auto].
  - apply rm_cons. apply (rm_merge false 5 1 3 [0] [1] [0] [1] [] []); [reflexivity|auto].
Qed.

Example C82_case :
  sexecutes rtrue req (own_ok R) waits (begin (library_classes ++ [])%list) /\
  svisits rtrue req waits (begin (library_classes ++ [])%list) waited /\ small R (s_w waited) /\
  seen (s_w waited) 0 = Some (mkScirc Ccring [0; 1] early) /\ seen (s_w waited) 1 = Some (mkScirc Ccring [0; 1] late) /\
  remeasured false early late /\
  exists x y, nth_error (w_circ (s_w waited)) 0 = Some x /\ nth_error (w_circ (s_w waited)) 1 = Some y /\
    List.length (circuit_qubits x) = 2 /\ List.length (circuit_qubits y) = 2 /\
    (forall o t, In o (c_ops x) -> nth_error (w_op (s_w waited)) o = Some t -> ready (s_w waited) x o t) /\
    (forall o t, In o (c_ops y) -> nth_error (w_op (s_w waited)) o = Some t -> ready (s_w waited) y o t).
Proof.
  rewrite app_nil_r. split; [|split; [|split; [|split; [|split; [|split]]]]].
  - vm_compute. repeat split; auto; intros H; try destruct H; try discriminate.
  - right. left. reflexivity.
  - rewrite waited_eq. split; vm_compute; reflexivity.
  - rewrite waited_eq. reflexivity.
  - rewrite waited_eq. reflexivity.
  - exact early_late.
  - rewrite waited_eq. eexists _, _. split; [reflexivity|]. split; [reflexivity|]. split; [reflexivity|]. split; [reflexivity|].
    split; intros o t Ho Et; cbn in Ho; repeat (destruct Ho as [<-|Ho]; [cbn in Et; injection Et as <-; try is_ready|]); try destruct Ho.
    all: constructor; cbn; [repeat constructor| | | |].
    all: try (intros l [= <-]; repeat constructor; eexists; reflexivity).
    all: try (eexists; split; [reflexivity|]; intros k [= <-]; split; [intros _; repeat (apply NoDup_cons; [cbn; intuition discriminate|]); apply NoDup_nil|intros [H|H]; try discriminate H; reflexivity]).
    all: try (intros k [= <-]; discriminate).
    all: try (intros k [= <-] _; split; [discriminate|intros _; repeat constructor; eexists; reflexivity]).
    all: try discriminate.
Qed.

(** ** Full statement: a measurement whose bit is never used can be dropped.  False: in H, measure into bit 0, H, measure
    into bit 1, the second outcome is 1 in two branches of probability 1/4 each; without the first measurement every
    branch with the outcome 1 has probability 0. *)
Definition watched : scirc Ccring := mkScirc Ccring [0] [h_first; measures 1 [0] [0] []; h_first; measures 2 [0] [1] []].
Definition unwatched : scirc Ccring := mkScirc Ccring [0] [h_first; h_first; measures 2 [0] [1] []].
Definition empty_bits : nat -> option bool := fun _ => None.
Lemma alone i : (i < 2 ^ 1)%N -> i = 0%N \/ i = 1%N.
Proof. intros H. change (2 ^ 1)%N with 2%N in H. lia. Qed.
Lemma watch_in o : In o (sc_ops Ccring watched) \/ In o (sc_ops Ccring unwatched) -> In o [h_first; measures 1 [0] [0] []; measures 2 [0] [1] []].
Proof. cbn. tauto. Qed.
Lemma watch_wf c : In c [watched; unwatched] -> wf_circ c /\ unitary_circ c.
Proof.
  intros Hc. assert (Q : sc_qubits Ccring c = [0]) by (destruct Hc as [<-|[<-|[]]]; reflexivity).
  assert (K : forall o, In o (sc_ops Ccring c) -> In o [h_first; measures 1 [0] [0] []; measures 2 [0] [1] []]) by (intros o Ho; apply watch_in; destruct Hc as [<-|[<-|[]]]; auto).
  split; [split; [rewrite Q; repeat constructor; cbn; tauto|]; split; [rewrite Q; discriminate|]|].
  - intros o Ho. apply K in Ho. exists [0]. rewrite Q. destruct Ho as [<-|[<-|[<-|[]]]]; (split; [reflexivity|]; split; [apply incl_refl|]).
    + split; [repeat constructor; cbn; auto|]. split; [intros k [= <-]; reflexivity|cbn; auto].
    + split; [discriminate|]. split; [discriminate|exact I].
    + split; [discriminate|]. split; [discriminate|exact I].
  - intros o Ho. apply K in Ho. destruct Ho as [<-|[<-|[<-|[]]]]; [exact (PropsSim.C29_library_gates (GOne GHadamard))|exact I|exact I].
Qed.

(** The hypotheses of [C82_repeated] hold of H and two measurements into different bits. *)
Example C82_repeated_case : let c := mkScirc Ccring [0] ([h_first] ++ [measures 1 [0] [0] []; measures 2 [0] [1] []])%list in
  wf_circ c /\ unitary_circ c /\ (SimModel.num_qubits Ccring c <= 30)%N /\ NoDup [0] /\ NoDup [1] /\ (forall b, In b [0] -> ~ In b [1]).
Proof.
  destruct (watch_wf watched (or_introl eq_refl)) as ((A1 & A2 & A3) & A4). intros c.
  assert (K : forall o, In o (sc_ops Ccring c) -> In o (sc_ops Ccring watched)) by (cbn; tauto).
  split; [split; [exact A1|split; [exact A2|intros o Ho; exact (A3 o (K o Ho))]]|]. split; [intros o Ho; exact (A4 o (K o Ho))|]. split; [cbn; lia|].
  split; [repeat constructor; cbn; tauto|]. split; [repeat constructor; cbn; tauto|]. intros b [<-|[]] [H|[]]. discriminate H.
Qed.
Definition even_state (i : N) : C := if (i =? 0)%N then RtoC (sqrt 2 / 2) else RtoC (sqrt 2 / 2).
Definition left_state (i : N) : C := if (i =? 0)%N then RtoC (sqrt 2 / 2) else C0.
Definition spread_state (i : N) : C := if (i =? 0)%N then RtoC (1 / 2) else RtoC (1 / 2).
Definition far_state (i : N) : C := if (i =? 0)%N then C0 else RtoC (1 / 2).

Theorem C82_unread_refuted : exists c d A mid q b B, wf_circ c /\ unitary_circ c /\ sc_qubits Ccring d = sc_qubits Ccring c /\
  sc_ops Ccring c = (A ++ measures mid [q] [b] [] :: B)%list /\ sc_ops Ccring d = (A ++ B)%list /\ (forall o, In o B -> ~ In b (so_cond Ccring o)) /\
  (exists h bits w, branch c (sc_ops Ccring c) h empty_bits (zero_state Ccring) bits w /\ bits 1 = Some true /\ weight (SimModel.num_qubits Ccring c) w = (1 / 4)%R) /\
  forall h bits w, branch d (sc_ops Ccring d) h empty_bits (zero_state Ccring) bits w -> bits 1 = Some true -> weight (SimModel.num_qubits Ccring d) w = 0%R.
Proof.
  assert (Q : (sqrt 2 * sqrt 2 = 2)%R) by (apply sqrt_sqrt; lra).
  exists watched, unwatched, [h_first], 1, 0, 0, [h_first; measures 2 [0] [1] []].
  split; [apply watch_wf; now left|]. split; [apply watch_wf; now left|]. split; [reflexivity|]. split; [reflexivity|]. split; [reflexivity|].
  split; [intros o [<-|[<-|[]]] []|]. split.
  - exists [false; true], (recorded (Some [1]) [true] (recorded (Some [0]) [false] empty_bits)), far_state. split; [|split; [reflexivity|]].
    + assert (P : forall o, In o [h_first; measures 1 [0] [0] []; measures 2 [0] [1] []] -> placed watched o [0%N]).
      { intros o [<-|[<-|[<-|[]]]]; (exists [0]; split; [reflexivity|repeat constructor]). }
      apply branch_gate with (ts := [0%N]) (v' := even_state); [intros (b & [] & _)|reflexivity|apply P; now left| |].
      { intros i Hi. destruct (alone i Hi) as [->| ->]; cbv -[IZR Rmult Rplus Rminus Ropp sqrt Rinv Rdiv]; f_equal; lra. }
      change [false; true] with ([false] ++ [true] ++ [])%list.
      apply branch_measure with (mid := 1) (store := Some [0]) (ts := [0%N]) (v' := left_state); [intros (b & [] & _)|reflexivity|apply P; right; now left|reflexivity| |].
      { intros i Hi. destruct (alone i Hi) as [->| ->]; reflexivity. }
      apply branch_gate with (ts := [0%N]) (v' := spread_state); [intros (b & [] & _)|reflexivity|apply P; now left| |].
      { intros i Hi. destruct (alone i Hi) as [->| ->]; cbv -[IZR Rmult Rplus Rminus Ropp sqrt Rinv Rdiv]; f_equal; try lra; nra. }
      apply branch_measure with (mid := 2) (store := Some [1]) (ts := [0%N]) (v' := far_state); [intros (b & [] & _)|reflexivity|apply P; right; right; now left|reflexivity| |].
      { intros i Hi. destruct (alone i Hi) as [->| ->]; reflexivity. }
      apply branch_end; reflexivity.
    + unfold weight. change (Nrange _) with [0; 1]%N. unfold Rsum, far_state, Cnorm2, RtoC, C0, Re, Im. cbn. lra.
  - intros h bits w H Hb. destruct (watch_wf unwatched (or_intror (or_introl eq_refl))) as ((D1 & _ & D3) & _).
    assert (P : forall o, In o [h_first; measures 2 [0] [1] []] -> placed unwatched o [0%N]) by (intros o [<-|[<-|[]]]; (exists [0]; split; [reflexivity|repeat constructor])).
    assert (W : forall o, In o [h_first; measures 2 [0] [1] []] -> wf_op unwatched o) by (intros o [<-|[<-|[]]]; apply D3; cbn; auto).
    assert (Z : forall o bs, In o [h_first; measures 2 [0] [1] []] -> ~ some_zero bs (so_cond Ccring o)) by (intros o bs [<-|[<-|[]]] (b & [] & _)).
    assert (I1 : In h_first [h_first; measures 2 [0] [1] []]) by now left. assert (I2 : In (measures 2 [0] [1] []) [h_first; measures 2 [0] [1] []]) by (right; now left).
    assert (W1 : forall o, In o [h_first; measures 2 [0] [1] []] -> wf_op unwatched o) by exact W.
    assert (W2 : forall o, In o [measures 2 [0] [1] []] -> wf_op unwatched o) by (intros o [<-|[]]; auto).
    apply (OrderProofs3.gate_branch unwatched D1 h_first _ [0%N]) in H; [|auto|exact W1|auto|reflexivity|auto].
    apply (OrderProofs3.gate_branch unwatched D1 h_first _ [0%N]) in H; [|auto|exact W2|auto|reflexivity|auto].
    apply (OrderProofs3.measure_branch unwatched D1 _ _ 2 (Some [1]) [0%N]) in H; [|auto|intros o []|auto|reflexivity|auto].
    destruct H as (os & h' & _ & Lo & H). inversion H as [? ? ? ? Eb Ew| | |]; subst. rewrite Eb in Hb.
    destruct os as [|o [|]]; try discriminate Lo. cbn in Hb. injection Hb as ->.
    unfold weight. change (Nrange _) with [0; 1]%N. unfold Rsum. cbn [fold_right]. rewrite !Ew by reflexivity.
    cbv -[IZR Rmult Rplus Rminus Ropp sqrt Rinv Rdiv]. nra.
Qed.
Print Assumptions C82_unread_refuted.

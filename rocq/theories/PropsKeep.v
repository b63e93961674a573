(** Property C84: qubits that gates keep. *)
From Coq Require Import List NArith ZArith Arith String Bool Lia Reals Lra Permutation.
From Verif Require Import Py CRing Cplx KernelSpec SimModel SimSpec SimReal SimProofs SimProofs2 MeasureSpec SampleSpec UnitarySpec CallSpec GateModel StateModel BranchSpec RegisterModel
  WorldModel WorldSpec WorldSpec4 WorldCheck LinkModel LinkSpec PropsLink SessionModel SessionSpec PropsSession PropsBranch OrderSpec PropsOrder PropsDefer ConeSpec.
From Verif Require PropsSim DeferProofs3 OrderProofs2 OrderProofs4 KeepProofs KeepProofs2.
Import ListNotations.
Local Open Scope nat_scope.

(** ** Gates *)

(** A gate keeps a qubit it acts on ([keeps]: a control, or a diagonal matrix) exactly if it never changes the
    probabilities of the outcomes of that qubit. *)
Theorem C84_keeps n k ts t : good_kind Ccring k ts -> good_targets n ts -> unitary_kind k -> In t ts ->
  (keeps k ts t <-> forall v b, prob false n t b (@gate_action Ccring false n k ts v) = prob false n t b v).
Proof. exact (KeepProofs.keeps_prob n k ts t). Qed.
Print Assumptions C84_keeps.

(** The gates of the library that have a diagonal matrix. *)
Theorem C84_library g : diagonal (matrix1 g) <->
  match g with
  | GIdentity | GZ | GS | GT | GRZ _ => True
  | GX | GY | GHadamard => False
  | GRX theta | GRY theta | GRotation _ theta _ => sin (theta / 2) = 0%R
  end.
Proof. exact (KeepProofs2.library_diagonal g). Qed.
Print Assumptions C84_library.

(** The hypotheses hold of CX on two of three qubits; it keeps its control and not its target. *)
Example C84_keeps_case : good_kind Ccring (gate_kind (GC GX)) [2; 0]%N /\ good_targets 3 [2; 0]%N /\ unitary_kind (gate_kind (GC GX)) /\
  keeps (gate_kind (GC GX)) [2; 0]%N 2%N /\ ~ keeps (gate_kind (GC GX)) [2; 0]%N 0%N.
Proof.
  split; [split; [reflexivity|split; [cbn; auto|intros a [= <-]; reflexivity]]|]. split; [split; [repeat constructor; cbn; intuition discriminate|intros t [<-|[<-|[]]]; reflexivity]|].
  split; [exact (PropsSim.C29_library_gates (GC GX))|]. split; [left; now left|]. intros [[H|[]]|H]; [discriminate H|]. now apply C84_library in H.
Qed.

(** ** Simulations *)

(** Gates with diagonal matrices after which no kept operation changes their qubits can be dropped: both simulations use
    the same random numbers, leave the same bits, and all joint outcomes of all qubits have the same probability. *)
Theorem C84_phases c k d : wf_circ c -> unitary_circ c -> (SimModel.num_qubits Ccring c <= 30)%N -> pruned (sc_ops Ccring c) k d -> (forall o, In o d -> phase o) ->
  forall rnd (m m' : SimModel.mem Ccring), (forall k, uniform (rnd k)) -> (forall b, m_bits Ccring m' b = m_bits Ccring m b) -> m_pos Ccring m' = m_pos Ccring m ->
  exists m1 a m2 a', simulate_C rnd c false false m = (m1, Ok (SVec Ccring a)) /\ simulate_C rnd (mkScirc Ccring (sc_qubits Ccring c) k) false false m' = (m2, Ok (SVec Ccring a')) /\
    (forall b, m_bits Ccring m2 b = m_bits Ccring m1 b) /\ m_pos Ccring m2 = m_pos Ccring m1 /\
    forall ts os, (forall t, In t ts -> (t < SimModel.num_qubits Ccring c)%N) -> joint (SimModel.num_qubits Ccring c) ts os a' = joint (SimModel.num_qubits Ccring c) ts os a.
Proof. exact (KeepProofs2.phases_simulate c k d). Qed.
Print Assumptions C84_phases.

(** ** Programs *)

(** Two circuits of a program on the same qubits, one without some diagonal gates of the other.  Full statement: for all
    programs; partial since the operations must be of the library, with numbers as parameters and bits for measurements
    ([own_ok], [ready]). *)
Theorem C84_program_partial ptrue peqb extra p s : sexecutes ptrue peqb (own_ok R) p (begin (library_classes ++ extra)%list) -> svisits ptrue peqb p (begin (library_classes ++ extra)%list) s -> small R (s_w s) ->
  forall c d x y sc sd dropped, nth_error (w_circ (s_w s)) c = Some x -> nth_error (w_circ (s_w s)) d = Some y ->
  (forall o t, In o (c_ops x) -> nth_error (w_op (s_w s)) o = Some t -> ready (s_w s) x o t) ->
  (forall o t, In o (c_ops y) -> nth_error (w_op (s_w s)) o = Some t -> ready (s_w s) y o t) ->
  let n := List.length (circuit_qubits x) in 1 <= n -> n <= 30 -> List.length (circuit_qubits y) = n ->
  seen (s_w s) c = Some sc -> seen (s_w s) d = Some sd -> sc_qubits Ccring sd = sc_qubits Ccring sc -> pruned (sc_ops Ccring sc) (sc_ops Ccring sd) dropped ->
  (forall o, In o dropped -> phase o) ->
  forall rnd, (forall k, uniform (rnd k)) -> exists s1 s2 a a', sim c false false rnd s = (s1, Ok tt) /\ sim d false false rnd s = (s2, Ok tt) /\
    s_st s1 c = mkCst (Some (mkArr [2 ^ N.of_nat n]%N a)) None /\ s_st s2 d = mkCst (Some (mkArr [2 ^ N.of_nat n]%N a')) None /\
    (forall b, b < List.length (w_bit (s_w s)) -> bit_value R (s_w s2) b = bit_value R (s_w s1) b) /\
    forall ts os, (forall t, In t ts -> (t < N.of_nat n)%N) -> joint (N.of_nat n) ts os a' = joint (N.of_nat n) ts os a.
Proof. exact (KeepProofs2.session_phases ptrue peqb extra p s). Qed.
Print Assumptions C84_program_partial.

(** ** A program with two circuits on the same two qubits and one bit: the first has H on the first qubit, CX from it to
    the second, S on the first, and measures the first; the second has no S. *)
Definition phases : sprog :=
  does [CNew _ false (Some 2) (Some 1); CNew _ false None None; CAddQubit _ 1 (AItem 0) LNone; CAddQubit _ 1 (AItem 1) LNone; CAddBit _ 1 (AItem 0) LNone;
        CConstruct 4 None (AQ (Some [IQubit 0])); CConstruct 11 None (ACT (Some [IQubit 0]) (Some [IQubit 1])); CConstruct 5 None (AQ (Some [IQubit 0]));
        CConstruct 22 None (AQ (Some [IQubit 0])); CStore _ 3 [IBit 0];
        CAppend _ 0 0; CAppend _ 0 1; CAppend _ 0 2; CAppend _ 0 3;
        CAppend _ 1 0; CAppend _ 1 1; CAppend _ 1 3].
Definition phased_end : session := fst (srun rtrue req phases (begin library_classes)).
Definition phased_world : world R := ltac:(let w := eval vm_compute in (s_w phased_end) in exact w).
Lemma phased_eq : s_w phased_end = phased_world.
Proof. vm_compute. reflexivity. Qed.
Definition kept_op (i : nat) : sop Ccring :=
  match i with
  | 0 => mkSop Ccring (gate_kind (GOne GHadamard)) (Some [0]) []
  | 1 => mkSop Ccring (gate_kind (GC GX)) (Some [0; 1]) []
  | 2 => mkSop Ccring (gate_kind (GOne GS)) (Some [0]) []
  | _ => mkSop Ccring (KMeasure Ccring 3 (Some [0])) (Some [0]) []
  end.
Lemma s_diagonal : diagonal (matrix1 GS).
Proof. now apply C84_library. Qed.
Lemma phases_pruned : pruned (map kept_op [0; 1; 2; 3]) (map kept_op [0; 1; 3]) (map kept_op [2]).
Proof.
  apply pr_keep, pr_keep, pr_drop; [|apply pr_keep; constructor]. intros p [<-|[]]. split; [|split; [|split]]; try (cbn; tauto).
  intros qs qs' q _ _ _ _. split; [exact s_diagonal|exact I].
Qed.

Example C84_case :
  sexecutes rtrue req (own_ok R) phases (begin (library_classes ++ [])%list) /\
  svisits rtrue req phases (begin (library_classes ++ [])%list) phased_end /\ small R (s_w phased_end) /\
  seen (s_w phased_end) 0 = Some (mkScirc Ccring [0; 1] (map kept_op [0; 1; 2; 3])) /\ seen (s_w phased_end) 1 = Some (mkScirc Ccring [0; 1] (map kept_op [0; 1; 3])) /\
  pruned (map kept_op [0; 1; 2; 3]) (map kept_op [0; 1; 3]) (map kept_op [2]) /\ (forall o, In o (map kept_op [2]) -> phase o) /\
  exists x y, nth_error (w_circ (s_w phased_end)) 0 = Some x /\ nth_error (w_circ (s_w phased_end)) 1 = Some y /\
    List.length (circuit_qubits x) = 2 /\ List.length (circuit_qubits y) = 2 /\
    (forall o t, In o (c_ops x) -> nth_error (w_op (s_w phased_end)) o = Some t -> ready (s_w phased_end) x o t) /\
    (forall o t, In o (c_ops y) -> nth_error (w_op (s_w phased_end)) o = Some t -> ready (s_w phased_end) y o t).
Proof.
  rewrite app_nil_r. split; [|split; [|split; [|split; [|split; [|split; [|split]]]]]].
  - vm_compute. repeat split; auto; intros H; try destruct H; try discriminate.
  - right. left. reflexivity.
  - rewrite phased_eq. split; vm_compute; reflexivity.
  - rewrite phased_eq. reflexivity.
  - rewrite phased_eq. reflexivity.
  - exact phases_pruned.
  - intros o [<-|[]]. exact s_diagonal.
  - rewrite phased_eq. eexists _, _. split; [reflexivity|]. split; [reflexivity|]. split; [reflexivity|]. split; [reflexivity|].
    split; intros o t Ho Et; cbn in Ho; repeat (destruct Ho as [<-|Ho]; [cbn in Et; injection Et as <-; try is_ready|]); try destruct Ho.
    all: constructor; cbn; [repeat constructor| | | |].
    all: try (intros l [= <-]; repeat constructor; eexists; reflexivity).
    all: try (eexists; split; [reflexivity|]; intros k [= <-]; split; [intros _; repeat (apply NoDup_cons; [cbn; intuition discriminate|]); apply NoDup_nil|intros [H|H]; try discriminate H; reflexivity]).
    all: try (intros k [= <-]; discriminate).
    all: try (intros k [= <-] _; split; [discriminate|intros _; repeat constructor; eexists; reflexivity]).
    all: try discriminate.
Qed.

(** The theorems of C81 apply to operations with common qubits that all keep: the measurement can come first. *)
Example C84_order_case : rearranged false (map kept_op [0; 1; 2; 3]) (map kept_op [0; 3; 2; 1]).
Proof.
  exists kept_op, [0; 1; 2; 3], [0; 3; 2; 1]. split; [reflexivity|]. split; [reflexivity|]. split; [repeat constructor; cbn; intuition discriminate|]. split.
  - apply NoDup_Permutation; [repeat constructor; cbn; intuition discriminate..|]. intros x. cbn. tauto.
  - intros i j H1 H2. apply before_pairs in H1, H2. cbn in H1, H2.
    assert (K : (i, j) = (1, 2) \/ (i, j) = (1, 3) \/ (i, j) = (2, 3)).
    { repeat (destruct H1 as [H1|H1]; [injection H1 as <- <-; repeat (destruct H2 as [H2|H2]; [try discriminate H2|]); try destruct H2; auto|]). destruct H1. }
    destruct K as [[= -> ->]|[[= -> ->]|[= -> ->]]]; (split; [|cbn; discriminate]); (split; [|split; [|split]]); try (cbn; tauto).
    + intros qs qs' q [= <-] [= <-] [<-|[<-|[]]] [H|[]]; try discriminate H. split; [left; now left|exact s_diagonal].
    + intros qs qs' q [= <-] [= <-] [<-|[<-|[]]] [H|[]]; try discriminate H. split; [left; now left|exact I].
    + intros qs qs' q _ _ _ _. split; [exact s_diagonal|exact I].
Qed.

(** ** Full statement: operations can change places if one of them keeps the common qubits.  False: H and Z. *)
Definition z_only : sop Ccring := mkSop Ccring (gate_kind (GOne GZ)) (Some [0]) [].
Definition hz (b : bool) : scirc Ccring := mkScirc Ccring [0] (if b then [h_first; z_only] else [z_only; h_first]).
Lemma hz_wf b : wf_circ (hz b) /\ unitary_circ (hz b).
Proof.
  assert (K : forall o, In o (sc_ops Ccring (hz b)) -> o = h_first \/ o = z_only) by (intros o Ho; destruct b; cbn in Ho; intuition auto).
  split; [split; [repeat constructor; cbn; tauto|]; split; [discriminate|]|].
  - intros o Ho. exists [0]. destruct (K o Ho) as [->| ->]; (split; [reflexivity|]; split; [apply incl_refl|]; split; [repeat constructor; cbn; auto|]; split; [intros k [= <-]; reflexivity|cbn; auto]).
  - intros o Ho. destruct (K o Ho) as [->| ->]; [exact (PropsSim.C29_library_gates (GOne GHadamard))|exact (PropsSim.C29_library_gates (GOne GZ))].
Qed.
Lemma hz_run b rnd m : (forall k, uniform (rnd k)) -> exists a, simulate_C rnd (hz b) false false m = (m, Ok (SVec Ccring a)) /\ a 1%N = (if b then Copp (RtoC (sqrt 2 / 2)) else RtoC (sqrt 2 / 2)).
Proof.
  intros Hr. destruct (hz_wf b) as ((A1 & A2 & A3) & A4).
  assert (L : (SimModel.num_qubits Ccring (hz b) <= 30)%N) by (vm_compute; discriminate).
  set (o1 := if b then h_first else z_only). set (o2 := if b then z_only else h_first).
  assert (E : sc_ops Ccring (hz b) = [o1; o2]) by (unfold o1, o2; destruct b; reflexivity).
  assert (I1 : In o1 (sc_ops Ccring (hz b))) by (rewrite E; now left). assert (I2 : In o2 (sc_ops Ccring (hz b))) by (rewrite E; right; now left).
  assert (G : forall o m v m1 w, o = o1 \/ o = o2 -> OrderProofs2.step (hz b) rnd o m v m1 w -> m1 = m /\ forall i, (i < 2 ^ 1)%N -> w i = @gate_action Ccring false 1 (so_kind Ccring o) [0%N] v i).
  { intros o m0 v m1 w Ho S. assert (Co : so_cond Ccring o = [] /\ is_measure (so_kind Ccring o) = false /\ so_qubits Ccring o = Some [0]) by (unfold o1, o2 in Ho; destruct b, Ho as [->| ->]; auto).
    destruct Co as (Co & Mo & Qo). destruct S as [Z -> ->|ts Z Em Hp -> Hg|mid st ts os Z Ek].
    - rewrite Co in Z. destruct Z as (x & [] & _).
    - destruct Hp as (qs & Eq & F). rewrite Qo in Eq. injection Eq as <-. inversion F as [|? t ? ts' Et F']; subst. inversion F'; subst.
      assert (t = 0%N) by (destruct (N.to_nat t) as [|[|x]] eqn:En; try discriminate Et; lia). subst t. split; [reflexivity|exact Hg].
    - rewrite Ek in Mo. discriminate Mo. }
  destruct (OrderProofs2.step_run (hz b) A1 L rnd Hr o1 m (zero_state Ccring)) as (m1 & w1 & R1 & N1 & S1); [split; [now apply A3|now apply A4]|apply SimProofs3.zero_normalised|].
  destruct (OrderProofs2.step_run (hz b) A1 L rnd Hr o2 m1 w1) as (m2 & w2 & R2 & N2 & S2); [split; [now apply A3|now apply A4]|exact N1|].
  destruct (G o1 _ _ _ _ (or_introl eq_refl) S1) as (-> & H1). destruct (G o2 _ _ _ _ (or_intror eq_refl) S2) as (-> & H2).
  exists w2. split; [apply DeferProofs3.simulate_run; [exact A2|]; rewrite E, (OrderProofs2.run_cons (hz b) rnd o1), R1; exact R2|].
  rewrite H2 by reflexivity. unfold o1, o2 in *. clear -H1. pose proof (H1 0%N eq_refl) as X. pose proof (H1 1%N eq_refl) as Y.
  assert (W : forall o : sop Ccring, o = h_first \/ o = z_only -> @gate_action Ccring false 1 (so_kind Ccring o) [0%N] w1 1%N =
    Cadd (Cmul (match so_kind Ccring o with KOther _ _ m => m 1%N 0%N | _ => C0 end) (w1 0%N)) (Cadd (Cmul (match so_kind Ccring o with KOther _ _ m => m 1%N 1%N | _ => C0 end) (w1 1%N)) C0)) by (intros o [->| ->]; reflexivity).
  destruct b; rewrite W by auto; rewrite X, Y; cbv -[IZR Rmult Rplus Rminus Ropp sqrt Rinv Rdiv]; f_equal; lra.
Qed.
Theorem C84_changed_refuted : exists c o p ops rnd m m1 a m2 a', wf_circ c /\ unitary_circ c /\ sc_ops Ccring c = [o; p] /\ ops = [p; o] /\
  (forall qs q, so_qubits Ccring p = Some qs -> In q qs -> keeps (so_kind Ccring p) qs q) /\ written o = [] /\ written p = [] /\ (forall k, uniform (rnd k)) /\
  simulate_C rnd c false false m = (m1, Ok (SVec Ccring a)) /\ simulate_C rnd (mkScirc Ccring (sc_qubits Ccring c) ops) false false m = (m2, Ok (SVec Ccring a')) /\
  a' 1%N <> a 1%N.
Proof.
  destruct (hz_run true quarters unset quarters_uniform) as (a & E1 & H1). destruct (hz_run false quarters unset quarters_uniform) as (a' & E2 & H2).
  destruct (hz_wf true) as (Wc & Uc). exists (hz true), h_first, z_only, [z_only; h_first], quarters, unset, unset, a, unset, a'.
  split; [exact Wc|]. split; [exact Uc|]. split; [reflexivity|]. split; [reflexivity|]. split; [intros qs q _ _; exact (proj2 (C84_library GZ) I)|].
  split; [reflexivity|]. split; [reflexivity|]. split; [exact quarters_uniform|]. split; [exact E1|]. split; [exact E2|].
  rewrite H1, H2. intros E. unfold RtoC, Copp in E. cbn -[Rdiv sqrt] in E. unfold Re, Im in E. cbn -[Rdiv sqrt] in E. injection E as E _.
  assert (Q : (0 < sqrt 2)%R) by (apply sqrt_lt_R0; lra). lra.
Qed.
Print Assumptions C84_changed_refuted.

(** Property C83: operations on which nothing that is kept depends. *)
From Coq Require Import List NArith ZArith Arith String Bool Lia Reals Lra Permutation.
From Verif Require Import Py CRing Cplx KernelSpec SimModel SimSpec SimReal SimProofs2 MeasureSpec SampleSpec UnitarySpec CallSpec GateModel StateModel BranchSpec RegisterModel
  WorldModel WorldSpec WorldSpec4 WorldCheck LinkModel LinkSpec PropsLink SessionModel SessionSpec PropsSession PropsBranch OrderSpec PropsOrder ConeSpec.
From Verif Require DeferProofs3 OrderProofs2 OrderProofs4 ConeProofs ConeProofs2.
Import ListNotations.
Local Open Scope nat_scope.

(** ** Simulations *)

(** Gates that are independent of all kept operations after them can be dropped: both simulations use the same random
    numbers, leave the same bits, and in the final states all joint outcomes on qubits that the dropped gates do not
    change have the same probability. *)
Theorem C83_simulated c k d : wf_circ c -> unitary_circ c -> (SimModel.num_qubits Ccring c <= 30)%N -> pruned (sc_ops Ccring c) k d ->
  (forall o, In o d -> is_measure (so_kind Ccring o) = false) -> forall rnd (m m' : SimModel.mem Ccring), (forall k, uniform (rnd k)) ->
  (forall b, m_bits Ccring m' b = m_bits Ccring m b) -> m_pos Ccring m' = m_pos Ccring m ->
  exists m1 a m2 a', simulate_C rnd c false false m = (m1, Ok (SVec Ccring a)) /\ simulate_C rnd (mkScirc Ccring (sc_qubits Ccring c) k) false false m' = (m2, Ok (SVec Ccring a')) /\
    (forall b, m_bits Ccring m2 b = m_bits Ccring m1 b) /\ m_pos Ccring m2 = m_pos Ccring m1 /\
    forall ts os, apart c d ts -> joint (SimModel.num_qubits Ccring c) ts os a' = joint (SimModel.num_qubits Ccring c) ts os a.
Proof. exact (ConeProofs2.pruned_simulate c k d). Qed.
Print Assumptions C83_simulated.

(** If measurements are dropped too, every test of the bits that does not look at the bits of the dropped measurements
    still has the same probability.  (In particular what is done to some qubits has no influence on measurements of
    others.) *)
Theorem C83_chances c k d T : wf_circ c -> unitary_circ c -> pruned (sc_ops Ccring c) k d -> ignores T d -> forall bits v, exists p,
  (forall x, chance c (sc_ops Ccring c) bits v T x <-> x = p) /\ forall x, chance (mkScirc Ccring (sc_qubits Ccring c) k) k bits v T x <-> x = p.
Proof. exact (ConeProofs2.pruned_chances c k d T). Qed.
Print Assumptions C83_chances.

(** ** Programs *)

(** Two circuits of a program on the same qubits, one without some gates of the other.  Full statement: for all programs;
    partial since the operations must be of the library, with numbers as parameters and bits for measurements
    ([own_ok], [ready]). *)
Theorem C83_program_partial ptrue peqb extra p s c d x y sc sd dropped :
  sexecutes ptrue peqb (own_ok R) p (begin (library_classes ++ extra)%list) -> svisits ptrue peqb p (begin (library_classes ++ extra)%list) s -> small R (s_w s) ->
  nth_error (w_circ (s_w s)) c = Some x -> nth_error (w_circ (s_w s)) d = Some y ->
  (forall o t, In o (c_ops x) -> nth_error (w_op (s_w s)) o = Some t -> ready (s_w s) x o t) ->
  (forall o t, In o (c_ops y) -> nth_error (w_op (s_w s)) o = Some t -> ready (s_w s) y o t) ->
  let n := List.length (circuit_qubits x) in 1 <= n -> n <= 30 -> List.length (circuit_qubits y) = n ->
  seen (s_w s) c = Some sc -> seen (s_w s) d = Some sd -> sc_qubits Ccring sd = sc_qubits Ccring sc -> pruned (sc_ops Ccring sc) (sc_ops Ccring sd) dropped ->
  (forall o, In o dropped -> is_measure (so_kind Ccring o) = false) ->
  forall rnd, (forall k, uniform (rnd k)) -> exists s1 s2 a a', sim c false false rnd s = (s1, Ok tt) /\ sim d false false rnd s = (s2, Ok tt) /\
    s_st s1 c = mkCst (Some (mkArr [2 ^ N.of_nat n]%N a)) None /\ s_st s2 d = mkCst (Some (mkArr [2 ^ N.of_nat n]%N a')) None /\
    (forall b, b < List.length (w_bit (s_w s)) -> bit_value R (s_w s2) b = bit_value R (s_w s1) b) /\
    forall ts os, apart sc dropped ts -> joint (N.of_nat n) ts os a' = joint (N.of_nat n) ts os a.
Proof. intros He Hv Hs. exact (ConeProofs2.session_pruned ptrue peqb extra p s He Hv Hs c d x y sc sd dropped). Qed.
Print Assumptions C83_program_partial.

(** ** A program with two circuits on the same two qubits and one bit: the first is that of C81 (H on the first, X on the
    second, measure the first, H on the second, Z on the second if the outcome is 1); the second has only H and the
    measurement. *)
Definition trims : sprog :=
  does [CNew _ false (Some 2) (Some 1); CNew _ false None None; CAddQubit _ 1 (AItem 0) LNone; CAddQubit _ 1 (AItem 1) LNone; CAddBit _ 1 (AItem 0) LNone;
        CConstruct 4 None (AQ (Some [IQubit 0])); CConstruct 1 None (AQ (Some [IQubit 1])); CConstruct 22 None (AQ (Some [IQubit 0])); CStore _ 2 [IBit 0];
        CConstruct 4 None (AQ (Some [IQubit 1])); CConstruct 3 None (AQ (Some [IQubit 1])); CCond _ 4 [IBit 0];
        CAppend _ 0 0; CAppend _ 0 1; CAppend _ 0 2; CAppend _ 0 3; CAppend _ 0 4;
        CAppend _ 1 0; CAppend _ 1 2].
Definition trimmed : session := fst (srun rtrue req trims (begin library_classes)).
Definition trimmed_world : world R := ltac:(let w := eval vm_compute in (s_w trimmed) in exact w).
Lemma trimmed_eq : s_w trimmed = trimmed_world.
Proof. vm_compute. reflexivity. Qed.
Lemma turns_pruned : pruned (map turn [0; 1; 2; 3; 4]) (map turn [0; 2]) (map turn [1; 3; 4]).
Proof.
  apply pr_keep, pr_drop; [|apply pr_keep, pr_drop; [intros p []|apply pr_drop; [intros p []|constructor]]].
  intros p [<-|[]]. split; [|split; [|split]]; cbn; try tauto. intros qs qs' q [= <-] [= <-] [<-|[]] [H|[]]. discriminate H.
Qed.

Example C83_case :
  sexecutes rtrue req (own_ok R) trims (begin (library_classes ++ [])%list) /\
  svisits rtrue req trims (begin (library_classes ++ [])%list) trimmed /\ small R (s_w trimmed) /\
  seen (s_w trimmed) 0 = Some (mkScirc Ccring [0; 1] (map turn [0; 1; 2; 3; 4])) /\ seen (s_w trimmed) 1 = Some (mkScirc Ccring [0; 1] (map turn [0; 2])) /\
  pruned (map turn [0; 1; 2; 3; 4]) (map turn [0; 2]) (map turn [1; 3; 4]) /\ (forall o, In o (map turn [1; 3; 4]) -> is_measure (so_kind Ccring o) = false) /\
  apart (mkScirc Ccring [0; 1] (map turn [0; 1; 2; 3; 4])) (map turn [1; 3; 4]) [0%N] /\ ignores (fun f => match f 0 with Some b => b | None => false end) (map turn [1; 3; 4]) /\
  exists x y, nth_error (w_circ (s_w trimmed)) 0 = Some x /\ nth_error (w_circ (s_w trimmed)) 1 = Some y /\
    List.length (circuit_qubits x) = 2 /\ List.length (circuit_qubits y) = 2 /\
    (forall o t, In o (c_ops x) -> nth_error (w_op (s_w trimmed)) o = Some t -> ready (s_w trimmed) x o t) /\
    (forall o t, In o (c_ops y) -> nth_error (w_op (s_w trimmed)) o = Some t -> ready (s_w trimmed) y o t).
Proof.
  rewrite app_nil_r. split; [|split; [|split; [|split; [|split; [|split; [|split; [|split; [|split]]]]]]]].
  - vm_compute. repeat split; auto; intros H; try destruct H; try discriminate.
  - right. left. reflexivity.
  - rewrite trimmed_eq. split; vm_compute; reflexivity.
  - rewrite trimmed_eq. reflexivity.
  - rewrite trimmed_eq. reflexivity.
  - exact turns_pruned.
  - intros o [<-|[<-|[<-|[]]]]; reflexivity.
  - intros t [<-|[]]. split; [reflexivity|]. intros o qs q [<-|[<-|[<-|[]]]] [= <-] [<-|[]]; discriminate.
  - intros f g H. rewrite (H 0); [reflexivity|]. intros o [<-|[<-|[<-|[]]]] [].
  - rewrite trimmed_eq. eexists _, _. split; [reflexivity|]. split; [reflexivity|]. split; [reflexivity|]. split; [reflexivity|].
    split; intros o t Ho Et; cbn in Ho; repeat (destruct Ho as [<-|Ho]; [cbn in Et; injection Et as <-; try is_ready|]); try destruct Ho.
    all: constructor; cbn; [repeat constructor| | | |].
    all: try (intros l [= <-]; repeat constructor; eexists; reflexivity).
    all: try (eexists; split; [reflexivity|]; intros k [= <-]; split; [intros _; repeat (apply NoDup_cons; [cbn; intuition discriminate|]); apply NoDup_nil|intros [H|H]; try discriminate H; reflexivity]).
    all: try (intros k [= <-]; discriminate).
    all: try (intros k [= <-] _; split; [discriminate|intros _; repeat constructor; eexists; reflexivity]).
    all: try discriminate.
Qed.

(** ** Full statement: with the same random numbers, dropped measurements leave the kept bits as they are.  False: without
    the measurement of the second qubit, the first qubit gets the number 1/4 instead of 3/4. *)
Theorem C83_same_numbers_refuted : exists c k d rnd m m1 a m2 a', wf_circ c /\ unitary_circ c /\ pruned (sc_ops Ccring c) k d /\ (forall o, In o d -> ~ In 0 (written o)) /\
  (forall k, uniform (rnd k)) /\ simulate_C rnd c false false m = (m1, Ok (SVec Ccring a)) /\ simulate_C rnd (mkScirc Ccring (sc_qubits Ccring c) k) false false m = (m2, Ok (SVec Ccring a')) /\
  m_bits Ccring m1 0 = Some true /\ m_bits Ccring m2 0 = Some false.
Proof.
  exists (looks false), [turn 0; first_look], [second_look], quarters, unset.
  destruct (look_start true) as (m1 & w1 & E1 & -> & N1 & H1). destruct (look_step true first_look 0%N 0 unset w1 (or_introl eq_refl) N1) as (m2 & w2 & r2 & E2 & N2 & R2 & _ & B2 & _ & _).
  destruct (look_start false) as (k1 & x1 & F1 & -> & M1 & G1). destruct (look_step false second_look 1%N 1 unset x1 (or_intror (or_introl eq_refl)) M1) as (k2 & x2 & s2 & F2 & M2 & S2 & X2 & _ & _ & P2).
  destruct (look_step false first_look 0%N 0 k2 x2 (or_introl eq_refl) M2) as (k3 & x3 & s3 & F3 & _ & S3 & _ & C3 & _ & _).
  exists k3, x3, m2, w2. split; [apply looks_wf|]. split; [apply looks_unitary|]. split.
  { apply pr_keep, pr_drop; [|apply pr_keep; constructor]. intros p [<-|[]]. split; [|split; [|split]]; cbn; try tauto.
    intros b [<-|[]] [H|[]]. discriminate H. }
  split; [intros o [<-|[]] [H|[]]; discriminate H|]. split; [exact quarters_uniform|]. split; [|split; [|split]].
  - apply DeferProofs3.simulate_run; [discriminate|]. change (sc_ops Ccring (looks false)) with (turn 0 :: [second_look; first_look]).
    rewrite (OrderProofs2.run_cons (looks false) quarters (turn 0)), F1, (OrderProofs2.run_cons (looks false) quarters second_look), F2, F3. reflexivity.
  - apply DeferProofs3.simulate_run; [discriminate|]. rewrite (OrderProofs4.run_qubits quarters (looks true)) by reflexivity. cbn [sc_ops].
    rewrite (OrderProofs2.run_cons (looks true) quarters (turn 0)), E1, E2. reflexivity.
  - rewrite C3. f_equal. rewrite P2 in S3. cbn [quarters unset m_pos] in S3.
    assert (s2 = false) by (apply S2; rewrite (proj2 (half_prob x1 false G1)); cbn; lra). subst s2.
    assert (G2 : forall i, (i < 2 ^ 2)%N -> x2 i = half_state i).
    { intros i Hi. rewrite (X2 i Hi), (proj2 (half_prob x1 false G1)), (G1 i Hi), sqrt_1.
      destruct (four i Hi) as [->|[->|[->| ->]]]; cbn -[Rdiv sqrt RtoC]; unfold Cmul, RtoC, C0; cbn [fst snd Re Im]; unfold Re, Im; cbn [fst snd]; try reflexivity; f_equal; field. }
    rewrite (proj1 (half_prob x2 false G2)) in S3. destruct s3; [reflexivity|]. exfalso. assert (3 / 4 < 1 / 2)%R by (apply S3; reflexivity). lra.
  - rewrite B2. f_equal. apply R2. rewrite (proj1 (half_prob w1 false H1)). cbn. lra.
Qed.
Print Assumptions C83_same_numbers_refuted.

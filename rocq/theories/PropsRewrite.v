(** Property C80: replacing parts of a circuit by parts with the same effect. *)
From Coq Require Import List NArith ZArith Arith String Bool Lia Reals Lra.
From Verif Require Import Py CRing Cplx KernelSpec SimModel SimSpec SimReal SimProofs2 MeasureSpec SampleSpec UnitarySpec CallSpec GateModel StateModel BranchSpec RegisterModel
  WorldModel WorldSpec WorldSpec4 WorldCheck LinkModel LinkSpec PropsLink SessionModel SessionSpec PropsSession RewriteSpec RewriteProofs3.
From Verif Require RewriteProofs RewriteProofs2 RewriteProofs4.
Import ListNotations.
Local Open Scope nat_scope.

(** ** Simulations *)

(** If a circuit comes from another by replacing runs of gates under one condition by runs with the same matrix up to
    a phase, then both simulations use the same random numbers, leave the same bits, and end in states that differ by
    a phase. *)
Theorem C80_rewritten c d : wf_circ c -> wf_circ d -> unitary_circ c -> unitary_circ d -> SimModel.num_qubits Ccring d = SimModel.num_qubits Ccring c ->
  (SimModel.num_qubits Ccring c <= 30)%N -> rewritten c d (sc_ops Ccring c) (sc_ops Ccring d) ->
  forall rnd (m m' : SimModel.mem Ccring), (forall k, uniform (rnd k)) -> (forall b, m_bits Ccring m' b = m_bits Ccring m b) -> m_pos Ccring m' = m_pos Ccring m ->
  exists m1 a m2 a' z, simulate_C rnd c false false m = (m1, Ok (SVec Ccring a)) /\ simulate_C rnd d false false m' = (m2, Ok (SVec Ccring a')) /\
    (forall b, m_bits Ccring m2 b = m_bits Ccring m1 b) /\ m_pos Ccring m2 = m_pos Ccring m1 /\ phased (SimModel.num_qubits Ccring c) z a a'.
Proof. exact (RewriteProofs.rewritten_simulate c d). Qed.
Print Assumptions C80_rewritten.

(** Every branch of the first circuit is one of the second, with the same outcomes, the same bits and the same
    probability. *)
Theorem C80_branches c d : wf_circ c -> wf_circ d -> SimModel.num_qubits Ccring d = SimModel.num_qubits Ccring c ->
  rewritten c d (sc_ops Ccring c) (sc_ops Ccring d) ->
  forall h bits v bits' w, branch c (sc_ops Ccring c) h bits v bits' w ->
  exists w' z, branch d (sc_ops Ccring d) h bits v bits' w' /\ phased (SimModel.num_qubits Ccring c) z w w' /\
    weight (SimModel.num_qubits Ccring c) w' = weight (SimModel.num_qubits Ccring c) w.
Proof. exact (RewriteProofs4.rewritten_branches c d). Qed.
Print Assumptions C80_branches.

(** The density matrices are the same: the phase is gone. *)
Theorem C80_density c d : wf_circ c -> wf_circ d -> unitary_circ c -> unitary_circ d -> SimModel.num_qubits Ccring d = SimModel.num_qubits Ccring c ->
  (2 * SimModel.num_qubits Ccring c <= 30)%N -> measurement_free c -> measurement_free d -> rewritten c d (sc_ops Ccring c) (sc_ops Ccring d) ->
  forall rnd (m : SimModel.mem Ccring) s s' le le', (forall k, uniform (rnd k)) ->
  let n := SimModel.num_qubits Ccring c in
  exists rho rho', simulate_set rnd c true le m s = (m, mkCst None (Some (mkArr [2 ^ n; 2 ^ n]%N rho)), Ok tt) /\
    simulate_set rnd d true le' m s' = (m, mkCst None (Some (mkArr [2 ^ n; 2 ^ n]%N rho')), Ok tt) /\
    forall r k, (r < 2 ^ n)%N -> (k < 2 ^ n)%N -> rho' (rowcol n r k) = rho (rowcol n r k).
Proof. exact (RewriteProofs4.rewritten_density c d). Qed.
Print Assumptions C80_density.

(** ** Which parts have the same effect *)

(** The identities in the table of RewriteSpec.v, on any qubits of any circuit and under any condition. *)
Theorem C80_identities c k A B z qs cond : identity k A B z -> NoDup (sc_qubits Ccring c) -> NoDup qs -> List.length qs = k -> incl qs (sc_qubits Ccring c) ->
  same_effect c (map (on qs cond) A) c (map (on qs cond) B).
Proof. exact (identity_effect c k A B z qs cond). Qed.
Print Assumptions C80_identities.

(** Gates without a common qubit can change places. *)
Theorem C80_disjoint c o p : NoDup (sc_qubits Ccring c) -> wf_op c o -> wf_op c p -> is_measure (so_kind Ccring o) = false -> is_measure (so_kind Ccring p) = false ->
  (forall qs qs' q, so_qubits Ccring o = Some qs -> so_qubits Ccring p = Some qs' -> In q qs -> ~ In q qs') -> same_effect c [o; p] c [p; o].
Proof. exact (RewriteProofs2.disjoint_effect c o p). Qed.
Print Assumptions C80_disjoint.

(** ** Programs *)

(** Two circuits of a program, one rewritten from the other.  Full statement: for all programs; partial since the
    operations must be of the library, with numbers as parameters and bits for measurements ([own_ok], [ready]). *)
Theorem C80_program_partial ptrue peqb extra p s c d x y sc sd :
  sexecutes ptrue peqb (own_ok R) p (begin (library_classes ++ extra)%list) -> svisits ptrue peqb p (begin (library_classes ++ extra)%list) s -> small R (s_w s) ->
  nth_error (w_circ (s_w s)) c = Some x -> nth_error (w_circ (s_w s)) d = Some y ->
  (forall o t, In o (c_ops x) -> nth_error (w_op (s_w s)) o = Some t -> ready (s_w s) x o t) ->
  (forall o t, In o (c_ops y) -> nth_error (w_op (s_w s)) o = Some t -> ready (s_w s) y o t) ->
  let n := List.length (circuit_qubits x) in 1 <= n -> n <= 30 -> List.length (circuit_qubits y) = n ->
  seen (s_w s) c = Some sc -> seen (s_w s) d = Some sd -> rewritten sc sd (sc_ops Ccring sc) (sc_ops Ccring sd) ->
  forall rnd, (forall k, uniform (rnd k)) -> exists s1 s2 a a' z, sim c false false rnd s = (s1, Ok tt) /\ sim d false false rnd s = (s2, Ok tt) /\
    s_st s1 c = mkCst (Some (mkArr [2 ^ N.of_nat n]%N a)) None /\ s_st s2 d = mkCst (Some (mkArr [2 ^ N.of_nat n]%N a')) None /\
    (forall b, b < List.length (w_bit (s_w s)) -> bit_value R (s_w s2) b = bit_value R (s_w s1) b) /\ phased (N.of_nat n) z a a'.
Proof. intros He Hv Hs. exact (RewriteProofs4.session_rewritten ptrue peqb extra p s He Hv Hs c d x y sc sd). Qed.
Print Assumptions C80_program_partial.

(** ** A program with two circuits on one qubit and one bit: H, S, S, measure, RX(pi) if the outcome is 1; and H, Z, measure,
    X if the outcome is 1. *)
Definition halves : sprog :=
  does [CNew _ false (Some 1) (Some 1); CNew _ false None None; CAddQubit _ 1 (AItem 0) LNone; CAddBit _ 1 (AItem 0) LNone;
        CConstruct 4 None (AQ (Some [IQubit 0])); CConstruct 5 None (AQ (Some [IQubit 0])); CConstruct 5 None (AQ (Some [IQubit 0]));
        CConstruct 22 None (AQ (Some [IQubit 0])); CStore _ 3 [IBit 0]; CConstruct 7 (Some [PNum PI]) (AQ (Some [IQubit 0])); CCond _ 4 [IBit 0];
        CConstruct 3 None (AQ (Some [IQubit 0])); CConstruct 1 None (AQ (Some [IQubit 0])); CCond _ 6 [IBit 0];
        CAppend _ 0 0; CAppend _ 0 1; CAppend _ 0 2; CAppend _ 0 3; CAppend _ 0 4;
        CAppend _ 1 0; CAppend _ 1 5; CAppend _ 1 3; CAppend _ 1 6].
Definition halved : session := fst (srun rtrue req halves (begin library_classes)).
Definition halved_world : world R := ltac:(let w := eval vm_compute in (s_w halved) in exact w).
Lemma halved_eq : s_w halved = halved_world.
Proof. vm_compute. reflexivity. Qed.
Definition gate_op (g : gate1) (cond : list nat) : sop Ccring := mkSop Ccring (gate_kind (GOne g)) (Some [0]) cond.
Definition look : sop Ccring := mkSop Ccring (KMeasure Ccring 3 (Some [0])) (Some [0]) [].
Definition long_circ : scirc Ccring := mkScirc Ccring [0] [gate_op GHadamard []; gate_op GS []; gate_op GS []; look; gate_op (GRX PI) [0]].
Definition short_circ : scirc Ccring := mkScirc Ccring [0] [gate_op GHadamard []; gate_op GZ []; look; gate_op GX [0]].

Lemma short_rewritten : rewritten long_circ short_circ (sc_ops Ccring long_circ) (sc_ops Ccring short_circ).
Proof.
  assert (P : forall e o, In e [long_circ; short_circ] -> so_qubits Ccring o = Some [0] -> placed e o [0%N]).
  { intros e o He Ho. exists [0]. split; [exact Ho|]. constructor; [|constructor]. destruct He as [<-|[<-|[]]]; reflexivity. }
  assert (Sm : forall o, so_qubits Ccring o = Some [0] -> alike (so_kind Ccring o) (so_kind Ccring o) -> same_op long_circ o short_circ o).
  { intros o Ho Ha. split; [exact Ha|]. split; [reflexivity|]. exists [0%N]. split; apply P; cbn; auto. }
  assert (Nd : NoDup [0]) by (repeat constructor; cbn; auto).
  apply rewritten_same; [apply Sm; reflexivity|].
  apply (rewritten_part long_circ short_circ [] [gate_op GS []; gate_op GS []] [gate_op GZ []]).
  - intros o [<-|[<-|[<-|[]]]]; split; reflexivity.
  - exact (identity_effect long_circ 1 _ _ _ [0] [] id_ss Nd Nd eq_refl (fun q H => H)).
  - apply rewritten_same; [apply Sm; reflexivity|].
    apply (rewritten_part long_circ short_circ [0] [gate_op (GRX PI) [0]] [gate_op GX [0]] [] []); [| |constructor].
    + intros o [<-|[<-|[]]]; split; reflexivity.
    + exact (identity_effect long_circ 1 _ _ _ [0] [0] id_xpi Nd Nd eq_refl (fun q H => H)).
Qed.

Example C80_case :
  sexecutes rtrue req (own_ok R) halves (begin (library_classes ++ [])%list) /\
  svisits rtrue req halves (begin (library_classes ++ [])%list) halved /\ small R (s_w halved) /\
  seen (s_w halved) 0 = Some long_circ /\ seen (s_w halved) 1 = Some short_circ /\
  rewritten long_circ short_circ (sc_ops Ccring long_circ) (sc_ops Ccring short_circ) /\
  exists x y, nth_error (w_circ (s_w halved)) 0 = Some x /\ nth_error (w_circ (s_w halved)) 1 = Some y /\
    List.length (circuit_qubits x) = 1 /\ List.length (circuit_qubits y) = 1 /\
    (forall o t, In o (c_ops x) -> nth_error (w_op (s_w halved)) o = Some t -> ready (s_w halved) x o t) /\
    (forall o t, In o (c_ops y) -> nth_error (w_op (s_w halved)) o = Some t -> ready (s_w halved) y o t).
Proof.
  rewrite app_nil_r. split; [|split; [|split; [|split; [|split; [|split]]]]].
  - vm_compute. repeat split; auto; intros H; try destruct H; try discriminate.
  - right. left. reflexivity.
  - rewrite halved_eq. split; vm_compute; reflexivity.
  - rewrite halved_eq. reflexivity.
  - rewrite halved_eq. reflexivity.
  - exact short_rewritten.
  - rewrite halved_eq. eexists _, _. split; [reflexivity|]. split; [reflexivity|]. split; [reflexivity|]. split; [reflexivity|]. split.
    + intros o t Ho Et. cbn in Ho. destruct Ho as [<-|[<-|[<-|[<-|[<-|[]]]]]]; cbn in Et; injection Et as <-; try is_ready.
      all: constructor; cbn; [repeat constructor| | | |].
      all: try (intros l [= <-]; repeat constructor; eexists; reflexivity).
      all: try (eexists; split; [reflexivity|]; intros k [= <-]; split; [intros _; repeat (apply NoDup_cons; [cbn; intuition discriminate|]); apply NoDup_nil|intros [H|H]; try discriminate H; reflexivity]).
      all: try (intros k [= <-]; discriminate).
      all: try (intros k [= <-] _; split; [discriminate|intros _; repeat constructor; eexists; reflexivity]).
      all: try discriminate.
    + intros o t Ho Et. cbn in Ho. destruct Ho as [<-|[<-|[<-|[<-|[]]]]]; cbn in Et; injection Et as <-; try is_ready.
      all: constructor; cbn; [repeat constructor| | | |].
      all: try (intros l [= <-]; repeat constructor; eexists; reflexivity).
      all: try (eexists; split; [reflexivity|]; intros k [= <-]; split; [intros _; repeat (apply NoDup_cons; [cbn; intuition discriminate|]); apply NoDup_nil|intros [H|H]; try discriminate H; reflexivity]).
      all: try (intros k [= <-]; discriminate).
      all: try (intros k [= <-] _; split; [discriminate|intros _; repeat constructor; eexists; reflexivity]).
      all: try discriminate.
Qed.

(** ** Full statement: parts with the same effect also have it when controlled.  False, since a phase is no longer
    global then: RX(pi) can be replaced by X, but CRX(pi) not by CX. *)
Definition pair_circ : scirc Ccring := mkScirc Ccring [0; 1] [].
Lemma controlled_entry g M : operator false (part pair_circ [on [0; 1] [] (two g)]) M -> forall r s, (r < 4)%N -> (s < 4)%N ->
  M r s = @gate_action Ccring false 2 (gate_kind (GC g)) [0; 1]%N (@basis Ccring s) r.
Proof.
  intros H r s Hr Hs. specialize (H s Hs). cbn [part sc_ops map uncond] in H. inversion H as [|? ? ? ? Hz|? ? ts ? v' ? Hz Hp Hv Hn]; subst.
  - destruct Hz as (b & [] & _).
  - inversion Hn as [? ? Hw| |]; subst. rewrite (Hw r Hr), (Hv r Hr).
    assert (E : ts = [0; 1]%N).
    { refine (placed_unique Ccring _ _ ts [0; 1]%N _ Hp _); [repeat constructor; cbn; intuition discriminate|].
      exists [0; 1]. split; [reflexivity|]. repeat constructor. }
    now subst ts.
Qed.

Theorem C80_controlled_refuted :
  exists g g', same_effect pair_circ (map (on [0] []) [one g]) pair_circ (map (on [0] []) [one g']) /\
    ~ same_effect pair_circ (map (on [0; 1] []) [two g]) pair_circ (map (on [0; 1] []) [two g']).
Proof.
  exists (GRX PI), GX. split.
  - refine (identity_effect pair_circ 1 _ _ _ [0] [] id_xpi _ _ eq_refl _); [repeat constructor; cbn; intuition discriminate|repeat constructor; cbn; auto|].
    intros q [<-|[]]. now left.
  - intros (M & L & z & HM & HL & Hz & H).
    pose proof (H 0%N 0%N eq_refl eq_refl) as H0. pose proof (H 3%N 2%N eq_refl eq_refl) as H1.
    rewrite (controlled_entry _ M HM), (controlled_entry _ L HL) in H0, H1 by reflexivity.
    destruct z as [x y]. revert H0 H1.
    cbv -[IZR Rmult Rplus Rminus Ropp PI cos sin Rinv Rdiv].
    intros H0 H1. rewrite ?cos_PI2, ?sin_PI2 in *. injection H0. injection H1. intros. lra.
Qed.
Print Assumptions C80_controlled_refuted.

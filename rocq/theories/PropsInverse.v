(** Property C87: taking back sequences of gates. *)
From Coq Require Import List NArith ZArith Arith String Bool Lia Reals Lra.
From Verif Require Import Py CRing Cplx KernelSpec SimModel SimSpec SimReal SimProofs2 MeasureSpec SampleSpec UnitarySpec CallSpec GateModel StateModel RegisterModel
  WorldModel WorldSpec WorldSpec4 WorldCheck LinkModel LinkSpec PropsLink SessionModel SessionSpec PropsSession RewriteSpec InverseSpec.
From Verif Require GateProofs RewriteProofs2 InverseProofs InverseProofs2 InverseProofs3.
Import ListNotations.
Local Open Scope N_scope.

(** Any sequence of library gates on any qubits and under any condition, followed by its inverse, has the effect of no
    gates at all, so that it can be a part to be replaced in C80. *)
Theorem C87_effect c A qs cond : picked (List.length qs) A -> NoDup (sc_qubits Ccring c) -> NoDup qs -> incl qs (sc_qubits Ccring c) ->
  same_effect c (map (on qs cond) (A ++ inverse A)) c [].
Proof. exact (InverseProofs.inverse_effect c A qs cond). Qed.
Print Assumptions C87_effect.

(** The inverse may come first, and the inverse of the inverse has the effect of the sequence, though it may be longer. *)
Theorem C87_first c A qs cond : picked (List.length qs) A -> NoDup (sc_qubits Ccring c) -> NoDup qs -> incl qs (sc_qubits Ccring c) ->
  same_effect c (map (on qs cond) (inverse A ++ A)) c [] /\ same_effect c (map (on qs cond) A) c (map (on qs cond) (inverse (inverse A))).
Proof. exact (InverseProofs3.inverse_first c A qs cond). Qed.
Print Assumptions C87_first.

(** A circuit of a sequence and its inverse ends in the state in which it began: exactly, not up to a phase, in both
    orders of the qubits, and whether or not the condition holds. *)
Theorem C87_simulated rnd c A qs cond le (m : SimModel.mem Ccring) : wf_circ c -> sc_ops Ccring c = map (on qs cond) (A ++ inverse A) -> picked (List.length qs) A ->
  NoDup qs -> incl qs (sc_qubits Ccring c) -> SimModel.num_qubits Ccring c <= 30 ->
  exists w, simulate_C rnd c false le m = (m, Ok (SVec Ccring w)) /\ forall i, i < 2 ^ SimModel.num_qubits Ccring c -> w i = if i =? 0 then C1 else C0.
Proof. exact (InverseProofs.inverse_simulate rnd c A qs cond le m). Qed.
Print Assumptions C87_simulated.

(** Between any other operations, measurements included, a sequence and its inverse can be left out: the same random
    numbers are used, the bits are the same, and the states differ by a phase. *)
Theorem C87_removed c P A S qs cond : wf_circ c -> unitary_circ c -> sc_ops Ccring c = P ++ map (on qs cond) (A ++ inverse A) ++ S -> picked (List.length qs) A -> NoDup qs ->
  incl qs (sc_qubits Ccring c) -> SimModel.num_qubits Ccring c <= 30 -> let d := mkScirc Ccring (sc_qubits Ccring c) (P ++ S) in
  forall rnd (m : SimModel.mem Ccring), (forall k, uniform (rnd k)) ->
  exists m1 a m2 a' z, simulate_C rnd c false false m = (m1, Ok (SVec Ccring a)) /\ simulate_C rnd d false false m = (m2, Ok (SVec Ccring a')) /\
    (forall b, m_bits Ccring m2 b = m_bits Ccring m1 b) /\ m_pos Ccring m2 = m_pos Ccring m1 /\ phased (SimModel.num_qubits Ccring c) z a a'.
Proof. exact (InverseProofs.inverse_removed_simulate c P A S qs cond). Qed.
Print Assumptions C87_removed.

(** H, a controlled rotation, T, a SWAP and a CCX on the qubits 7, 5 and 6 of a circuit, before and after measurements. *)
Definition there : list (gate * list nat) :=
  [(GOne GHadamard, [0]); (GC (GRotation 1 2 3), [2; 0]); (GOne GT, [1]); (GSWAP, [0; 1]); (GCCX, [1; 0; 2])]%nat.
Definition look (o : nat) : sop Ccring := mkSop Ccring (KMeasure Ccring o (Some [o])) (Some [6%nat]) [].
Definition round_trip : scirc Ccring := mkScirc Ccring [5; 6; 7]%nat ([look 0] ++ map (on [7; 5; 6]%nat [0%nat]) (there ++ inverse there) ++ [look 1]).
Definition only_trip : scirc Ccring := mkScirc Ccring [5; 6; 7]%nat (map (on [7; 5; 6]%nat []) (there ++ inverse there)).
Lemma distinct3 (a b c : nat) : a <> b -> a <> c -> b <> c -> NoDup [a; b; c].
Proof. intros. repeat constructor; cbn; intuition. Qed.
Lemma there_picked : picked 3 there.
Proof.
  assert (D : forall a b : nat, a <> b -> NoDup [a; b]) by (intros; repeat constructor; cbn; intuition).
  intros g js [H|[H|[H|[H|[H|[]]]]]]; injection H as <- <-; (split; [reflexivity|]).
  all: split; [first [apply D; discriminate|apply distinct3; discriminate|repeat constructor; cbn; auto]|intros j Hj; cbn in Hj; lia].
Qed.

Example C87_case :
  picked 3 there /\ NoDup [7; 5; 6]%nat /\ incl [7; 5; 6]%nat [5; 6; 7]%nat /\
  inverse there = [(GCCX, [1; 0; 2]); (GSWAP, [0; 1]); (GOne GT, [1]); (GOne GS, [1]); (GOne GZ, [1]); (GC (GRotation (- (3)) (- (2)) (- (1))), [2; 0]); (GOne GHadamard, [0])]%nat /\
  wf_circ only_trip /\ wf_circ round_trip /\ unitary_circ round_trip.
Proof.
  assert (Q : NoDup [7; 5; 6]%nat) by (apply distinct3; discriminate).
  assert (I : incl [7; 5; 6]%nat [5; 6; 7]%nat) by (intros q; cbn; tauto).
  assert (F : forall c cond, sc_qubits Ccring c = [5; 6; 7]%nat -> forall o, In o (map (on [7; 5; 6]%nat cond) (there ++ inverse there)) -> wf_op c o).
  { intros c cond E o H. refine (proj1 (RewriteProofs2.steps_fine c [7; 5; 6]%nat cond [2; 0; 1] Q _ _ _ o H)); [rewrite E; repeat constructor|].
    apply Forall_app. pose proof (proj1 (InverseProofs.picked_ok 3 there) there_picked). split; [assumption|now apply InverseProofs.inverse_ok]. }
  split; [exact there_picked|]. split; [exact Q|]. split; [exact I|]. split; [reflexivity|].
  assert (D : NoDup [5; 6; 7]%nat) by (apply distinct3; discriminate).
  split; [|split].
  - split; [exact D|]. split; [discriminate|]. now apply F.
  - split; [exact D|]. split; [discriminate|]. intros o H. unfold round_trip, sc_ops in H. apply in_app_or in H.
    assert (L : forall k, wf_op round_trip (look k)).
    { intros k. exists [6%nat]. split; [reflexivity|]. split; [intros q; cbn; tauto|]. split; [discriminate|]. split; [discriminate|cbn; auto]. }
    destruct H as [[<-|[]]|H]; [apply L|]. apply in_app_or in H. destruct H as [H|[<-|[]]]; [|apply L]. now apply (F round_trip [0%nat]).
  - intros o H. unfold round_trip, sc_ops in H. apply in_app_or in H. destruct H as [[<-|[]]|H]; [exact Logic.I|]. apply in_app_or in H. destruct H as [H|[<-|[]]]; [|exact Logic.I].
    apply in_map_iff in H. destruct H as (s & <- & _). apply GateProofs.gate_kind_unitary.
Qed.

(** ** Full statement: the gates may be taken back in any order.  False: H and Z are their own inverses, but H, Z, H, Z
    does not end in the state in which it began. *)
Theorem C87_same_order_refuted : exists g h : gate1, inverse_gate (GOne g) = [GOne g] /\ inverse_gate (GOne h) = [GOne h] /\
  exists c, wf_circ c /\ sc_ops Ccring c = map (on [0%nat] []) (map one [g; h; g; h]) /\
  forall rnd (m : SimModel.mem Ccring), exists w, simulate_C rnd c false false m = (m, Ok (SVec Ccring w)) /\ w 0 <> C1.
Proof.
  exists GHadamard, GZ. split; [reflexivity|]. split; [reflexivity|]. exists InverseProofs.same_order. split; [exact InverseProofs.same_order_wf|]. split; [reflexivity|].
  intros rnd m. destruct (InverseProofs.same_order_state rnd m) as (w & E & Z). exists w. split; [exact E|]. rewrite Z. intros H. injection H. lra.
Qed.
Print Assumptions C87_same_order_refuted.

(** ** Programs *)

(** Two circuits of a program on the same qubits, the second without a sequence and its inverse.  Full statement: for all
    programs; partial since the operations must be of the library, with numbers as parameters and bits for measurements
    ([own_ok], [ready]). *)
Theorem C87_program_partial ptrue peqb extra p s c d x y sc P A S qs cond :
  sexecutes ptrue peqb (own_ok R) p (begin (library_classes ++ extra)%list) -> svisits ptrue peqb p (begin (library_classes ++ extra)%list) s -> small R (s_w s) ->
  nth_error (w_circ (s_w s)) c = Some x -> nth_error (w_circ (s_w s)) d = Some y ->
  (forall o t, In o (c_ops x) -> nth_error (w_op (s_w s)) o = Some t -> ready (s_w s) x o t) ->
  (forall o t, In o (c_ops y) -> nth_error (w_op (s_w s)) o = Some t -> ready (s_w s) y o t) ->
  let n := List.length (circuit_qubits x) in (1 <= n)%nat -> (n <= 30)%nat -> List.length (circuit_qubits y) = n ->
  seen (s_w s) c = Some sc -> seen (s_w s) d = Some (mkScirc Ccring (sc_qubits Ccring sc) (P ++ S)) ->
  sc_ops Ccring sc = P ++ map (on qs cond) (A ++ inverse A) ++ S -> picked (List.length qs) A -> NoDup qs -> incl qs (sc_qubits Ccring sc) ->
  forall rnd, (forall k, uniform (rnd k)) -> exists s1 s2 a a' z, sim c false false rnd s = (s1, Ok tt) /\ sim d false false rnd s = (s2, Ok tt) /\
    s_st s1 c = mkCst (Some (mkArr [2 ^ N.of_nat n]%N a)) None /\ s_st s2 d = mkCst (Some (mkArr [2 ^ N.of_nat n]%N a')) None /\
    (forall b, (b < List.length (w_bit (s_w s)))%nat -> bit_value R (s_w s2) b = bit_value R (s_w s1) b) /\ phased (N.of_nat n) z a a'.
Proof. exact (InverseProofs2.session_inverse ptrue peqb extra p s c d x y sc P A S qs cond). Qed.
Print Assumptions C87_program_partial.

(** A program with two circuits on one qubit and one bit: H, S, Z, S, measure; and H, measure. *)
Definition detour : sprog :=
  does [CNew _ false (Some 1) (Some 1); CNew _ false None None; CAddQubit _ 1 (AItem 0) LNone; CAddBit _ 1 (AItem 0) LNone;
        CConstruct 4 None (AQ (Some [IQubit 0])); CConstruct 5 None (AQ (Some [IQubit 0])); CConstruct 3 None (AQ (Some [IQubit 0]));
        CConstruct 22 None (AQ (Some [IQubit 0])); CStore _ 3 [IBit 0];
        CAppend _ 0 0; CAppend _ 0 1; CAppend _ 0 2; CAppend _ 0 1; CAppend _ 0 3;
        CAppend _ 1 0; CAppend _ 1 3]%nat.
Definition detoured : session := fst (srun rtrue req detour (begin library_classes)).
Definition detoured_world : world R := ltac:(let w := eval vm_compute in (s_w detoured) in exact w).
Lemma detoured_eq : s_w detoured = detoured_world.
Proof. vm_compute. reflexivity. Qed.
Definition first_h : sop Ccring := on [0%nat] [] (one GHadamard).
Definition at_end : sop Ccring := mkSop Ccring (KMeasure Ccring 3 (Some [0%nat])) (Some [0%nat]) [].
Definition detour_circ : scirc Ccring := mkScirc Ccring [0%nat] ([first_h] ++ map (on [0%nat] []) ([one GS] ++ inverse [one GS]) ++ [at_end]).

Example C87_program_case :
  sexecutes rtrue req (own_ok R) detour (begin (library_classes ++ [])%list) /\
  svisits rtrue req detour (begin (library_classes ++ [])%list) detoured /\ small R (s_w detoured) /\
  seen (s_w detoured) 0 = Some detour_circ /\ seen (s_w detoured) 1 = Some (mkScirc Ccring [0%nat] ([first_h] ++ [at_end])) /\
  picked 1 [one GS] /\
  exists x y, nth_error (w_circ (s_w detoured)) 0 = Some x /\ nth_error (w_circ (s_w detoured)) 1 = Some y /\
    List.length (circuit_qubits x) = 1%nat /\ List.length (circuit_qubits y) = 1%nat /\
    (forall o t, In o (c_ops x) -> nth_error (w_op (s_w detoured)) o = Some t -> ready (s_w detoured) x o t) /\
    (forall o t, In o (c_ops y) -> nth_error (w_op (s_w detoured)) o = Some t -> ready (s_w detoured) y o t).
Proof.
  rewrite app_nil_r. split; [|split; [|split; [|split; [|split; [|split]]]]].
  - vm_compute. repeat split; auto; intros H; try destruct H; try discriminate.
  - right. left. reflexivity.
  - rewrite detoured_eq. split; vm_compute; reflexivity.
  - rewrite detoured_eq. reflexivity.
  - rewrite detoured_eq. reflexivity.
  - intros g js [H|[]]. injection H as <- <-. split; [reflexivity|]. split; [repeat constructor; cbn; auto|]. intros j [<-|[]]. lia.
  - rewrite detoured_eq. eexists _, _. split; [reflexivity|]. split; [reflexivity|]. split; [reflexivity|]. split; [reflexivity|]. split.
    + intros o t Ho Et. cbn in Ho. destruct Ho as [<-|[<-|[<-|[<-|[<-|[]]]]]]; cbn in Et; injection Et as <-; try is_ready.
      all: constructor; cbn; [repeat constructor| | | |].
      all: try (intros l [= <-]; repeat constructor; eexists; reflexivity).
      all: try (eexists; split; [reflexivity|]; intros k [= <-]; split; [intros _; repeat (apply NoDup_cons; [cbn; intuition discriminate|]); apply NoDup_nil|intros [H|H]; try discriminate H; reflexivity]).
      all: try (intros k [= <-]; discriminate).
      all: try (intros k [= <-] _; split; [discriminate|intros _; repeat constructor; eexists; reflexivity]).
      all: try discriminate.
    + intros o t Ho Et. cbn in Ho. destruct Ho as [<-|[<-|[]]]; cbn in Et; injection Et as <-; try is_ready.
      all: constructor; cbn; [repeat constructor| | | |].
      all: try (intros l [= <-]; repeat constructor; eexists; reflexivity).
      all: try (eexists; split; [reflexivity|]; intros k [= <-]; split; [intros _; repeat (apply NoDup_cons; [cbn; intuition discriminate|]); apply NoDup_nil|intros [H|H]; try discriminate H; reflexivity]).
      all: try (intros k [= <-]; discriminate).
      all: try (intros k [= <-] _; split; [discriminate|intros _; repeat constructor; eexists; reflexivity]).
      all: try discriminate.
Qed.

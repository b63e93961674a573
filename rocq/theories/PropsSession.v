(** Property C76: programs that build circuits and simulate them. *)
From Coq Require Import List NArith ZArith Arith String Bool Lia Reals Lra.
From Verif Require Import Py CRing Cplx KernelSpec SimModel SimSpec SimReal SimProofs6 GateModel StateModel StateSpec StateProofs
  RegisterModel WorldModel WorldSpec WorldSpec4 WorldCheck LinkModel LinkSpec LinkProofs SessionModel SessionSpec SessionProofs SessionProofs2 SessionProofs4 PropsLink.
From Verif Require PropsSim SessionProofs3.
Import ListNotations.
Local Open Scope nat_scope.
Local Open Scope string_scope.

(** ** C76: to the heap, a program that simulates anywhere does what some program does that sets bits instead:
    it ends the same way, goes through the same heaps and calls the same methods.  So whatever holds of every
    heap that programs reach also holds when they simulate. *)
Theorem C76_programs :
  forall ptrue peqb (p : sprog) (s : session), exists q : prog R,
    run ptrue peqb q (s_w s) = (s_w (fst (srun ptrue peqb p s)), snd (srun ptrue peqb p s)) /\
    (forall t, svisits ptrue peqb p s t -> visits R ptrue peqb q (s_w s) (s_w t)) /\
    (forall ok : world R -> call R -> Prop, (forall w b x, ok w (CBitSet R b x true)) -> (forall w c, ok w (CQubits R c)) ->
      sexecutes ptrue peqb ok p s -> executes R ptrue peqb ok q (s_w s)).
Proof. exact refine. Qed.
Print Assumptions C76_programs.

(** ** Simulating a circuit built with the library, in any state of such a program: the circuit gets a
    normalised state; apart from its cached [qubits], only bits change; every bit that a measurement without
    condition stores has a value, every bit that no measurement stores keeps its value; measurements of other
    circuits are not touched.  If every condition is about a bit measured earlier in the circuit, simulating
    again with the same random numbers gives the same state and the same bits. *)
Theorem C76_simulates_partial :
  forall ptrue peqb extra p (s : session) c x (rnd : nat -> R),
    sexecutes ptrue peqb (own_ok R) p (begin (library_classes ++ extra)%list) ->
    svisits ptrue peqb p (begin (library_classes ++ extra)%list) s -> small R (s_w s) ->
    nth_error (w_circ (s_w s)) c = Some x ->
    (forall o y, In o (c_ops x) -> nth_error (w_op (s_w s)) o = Some y -> ready (s_w s) x o y) ->
    (forall k, uniform (rnd k)) -> 1 <= List.length (circuit_qubits x) -> List.length (circuit_qubits x) <= 30 ->
    exists s' a, sim c false false rnd s = (s', Ok tt) /\
      s_st s' c = mkCst (Some (mkArr [2 ^ N.of_nat (List.length (circuit_qubits x))]%N a)) None /\
      normalised (N.of_nat (List.length (circuit_qubits x))) a /\
      (forall c', c' <> c -> s_st s' c' = s_st s c') /\ same_but_bits c (s_w s) (s_w s') /\
      (forall o b, In o (c_ops x) -> always (s_w s) o -> stores (s_w s) o b -> b < List.length (w_bit (s_w s)) ->
         bit_value R (s_w s') b <> None) /\
      (forall b, (forall o, In o (c_ops x) -> ~ stores (s_w s) o b) -> bit_value R (s_w s') b = bit_value R (s_w s) b) /\
      (forall o, In o (c_ops x) -> measures (s_w s) o -> always (s_w s) o -> s_mst s' o <> None) /\
      (forall o, ~ In o (c_ops x) -> s_mst s' o = s_mst s o /\ s_idx s' o = s_idx s o) /\
      (settled (s_w s) (c_ops x) ->
         exists s2, sim c false false rnd s' = (s2, Ok tt) /\ s_w s2 = s_w s' /\ forall c', s_st s2 c' = s_st s' c').
Proof. exact session_simulates. Qed.
Print Assumptions C76_simulates_partial.

(** Little-endian simulation: without measurements the amplitudes are those of the big-endian one with the
    bits of their indices reversed; a measurement without condition is refused. *)
Theorem C76_little_endian :
  forall ptrue peqb extra p (s : session) c x (rnd : nat -> R),
    sexecutes ptrue peqb (own_ok R) p (begin (library_classes ++ extra)%list) ->
    svisits ptrue peqb p (begin (library_classes ++ extra)%list) s -> small R (s_w s) ->
    nth_error (w_circ (s_w s)) c = Some x ->
    (forall o y, In o (c_ops x) -> nth_error (w_op (s_w s)) o = Some y -> ready (s_w s) x o y) ->
    (forall k, uniform (rnd k)) ->
    let n := List.length (circuit_qubits x) in 1 <= n -> n <= 30 ->
    (forall o, In o (c_ops x) -> ~ measures (s_w s) o) ->
    exists s1 s2 a b, sim c false false rnd s = (s1, Ok tt) /\ sim c false true rnd s = (s2, Ok tt) /\
      s_st s1 c = mkCst (Some (mkArr [2 ^ N.of_nat n]%N a)) None /\ s_st s2 c = mkCst (Some (mkArr [2 ^ N.of_nat n]%N b)) None /\
      s_w s1 = s_w s2 /\ w_bit (s_w s2) = w_bit (s_w s) /\
      forall i, (i < 2 ^ N.of_nat n)%N -> b i = a (bitrev (N.of_nat n) i).
Proof. exact session_little. Qed.
Print Assumptions C76_little_endian.

Theorem C76_little_endian_refused :
  forall ptrue peqb extra p (s : session) c x (rnd : nat -> R),
    sexecutes ptrue peqb (own_ok R) p (begin (library_classes ++ extra)%list) ->
    svisits ptrue peqb p (begin (library_classes ++ extra)%list) s -> small R (s_w s) ->
    nth_error (w_circ (s_w s)) c = Some x ->
    (forall o y, In o (c_ops x) -> nth_error (w_op (s_w s)) o = Some y -> ready (s_w s) x o y) ->
    let n := List.length (circuit_qubits x) in 1 <= n -> n <= 30 ->
    forall o, In o (c_ops x) -> measures (s_w s) o -> always (s_w s) o ->
    exists s', sim c false true rnd s = (s', Err CircuitError) /\ w_bit (s_w s') = w_bit (s_w s) /\ forall c', s_st s' c' = s_st s c'.
Proof. exact session_little_refused. Qed.
Print Assumptions C76_little_endian_refused.

(** Density matrices: without measurements the outer product of the state; a measurement is refused. *)
Theorem C76_mixed :
  forall ptrue peqb extra p (s : session) c x (rnd : nat -> R),
    sexecutes ptrue peqb (own_ok R) p (begin (library_classes ++ extra)%list) ->
    svisits ptrue peqb p (begin (library_classes ++ extra)%list) s -> small R (s_w s) ->
    nth_error (w_circ (s_w s)) c = Some x ->
    (forall o y, In o (c_ops x) -> nth_error (w_op (s_w s)) o = Some y -> ready (s_w s) x o y) ->
    (forall k, uniform (rnd k)) ->
    let n := List.length (circuit_qubits x) in 1 <= n -> n <= 15 ->
    forall le, (forall o, In o (c_ops x) -> ~ measures (s_w s) o) ->
    exists s1 s2 a rho, sim c false false rnd s = (s1, Ok tt) /\ sim c true le rnd s = (s2, Ok tt) /\
      s_st s1 c = mkCst (Some (mkArr [2 ^ N.of_nat n]%N a)) None /\
      s_st s2 c = mkCst None (Some (mkArr [2 ^ N.of_nat n; 2 ^ N.of_nat n]%N rho)) /\
      s_w s1 = s_w s2 /\ w_bit (s_w s2) = w_bit (s_w s) /\ normalised (N.of_nat n) a /\
      forall i j, (i < 2 ^ N.of_nat n)%N -> (j < 2 ^ N.of_nat n)%N -> rho (rowcol (N.of_nat n) i j) = Cmul (a i) (Cconj (a j)).
Proof. exact session_mixed. Qed.
Print Assumptions C76_mixed.

Theorem C76_mixed_refused :
  forall ptrue peqb extra p (s : session) c x (rnd : nat -> R),
    sexecutes ptrue peqb (own_ok R) p (begin (library_classes ++ extra)%list) ->
    svisits ptrue peqb p (begin (library_classes ++ extra)%list) s -> small R (s_w s) ->
    nth_error (w_circ (s_w s)) c = Some x ->
    (forall o y, In o (c_ops x) -> nth_error (w_op (s_w s)) o = Some y -> ready (s_w s) x o y) ->
    let n := List.length (circuit_qubits x) in 1 <= n -> n <= 15 ->
    forall le o, In o (c_ops x) -> measures (s_w s) o ->
    exists s', sim c true le rnd s = (s', Err TypeError) /\ w_bit (s_w s') = w_bit (s_w s) /\ forall c', s_st s' c' = s_st s c'.
Proof. exact session_mixed_refused. Qed.
Print Assumptions C76_mixed_refused.

(** ** A circuit with a condition on a measured bit, simulated inside the program *)
Fixpoint does (l : list (call R)) : sprog := match l with [] => SSkip | x :: l' => SSeq (SDo x) (does l') end.
Definition third (_ : nat) : R := (1 / 3)%R.
Definition prepare : sprog := does [CNew _ false (Some 2) (Some 1)].
Definition measured : sprog :=
  SWith 0 (does [CConstruct 4 None (AQ (Some [IQubit 0])); CConstruct 22 None (AQ (Some [IQubit 0])); CStore _ 1 [IBit 0];
                 CConstruct 1 None (AQ (Some [IQubit 1])); CCond _ 2 [IBit 0]]).
Definition feedback : sprog := SSeq prepare (SSeq measured (SSim 0 false false third)).
Definition prepared : session := fst (srun rtrue req prepare (begin library_classes)).
Definition fed : session := fst (srun rtrue req measured prepared).
Definition fed_world : world R := ltac:(let w := eval vm_compute in (s_w fed) in exact w).
Lemma fed_eq : s_w fed = fed_world.
Proof. vm_compute. reflexivity. Qed.

Lemma visits_then p q s s' t : srun rtrue req p s = (s', Ok tt) -> svisits rtrue req q s' t -> svisits rtrue req (SSeq p q) s t.
Proof. intros E H. right. right. right. now rewrite E. Qed.
Lemma executes_then ok p q s s' : srun rtrue req p s = (s', Ok tt) -> sexecutes rtrue req ok p s -> sexecutes rtrue req ok q s' ->
  sexecutes rtrue req ok (SSeq p q) s.
Proof. intros E H1 H2. split; [exact H1|]. now rewrite E. Qed.

Example C76_case :
  sexecutes rtrue req (own_ok R) feedback (begin (library_classes ++ [])%list) /\
  svisits rtrue req feedback (begin (library_classes ++ [])%list) fed /\ small R (s_w fed) /\
  (forall k, uniform (third k)) /\
  exists x, nth_error (w_circ (s_w fed)) 0 = Some x /\ c_ops x = [0; 1; 2] /\ List.length (circuit_qubits x) = 2 /\
    (forall o y, In o (c_ops x) -> nth_error (w_op (s_w fed)) o = Some y -> ready (s_w fed) x o y) /\
    always (s_w fed) 1 /\ stores (s_w fed) 1 0 /\ 0 < List.length (w_bit (s_w fed)) /\ asks (s_w fed) 2 0 /\ settled (s_w fed) (c_ops x) /\
    measures (s_w fed) 1.
Proof.
  rewrite app_nil_r. split; [|split; [|split; [|split]]].
  - vm_compute. repeat split; auto; intros H; try destruct H; try discriminate.
  - apply (visits_then prepare _ _ prepared); [vm_compute; reflexivity|]. apply (visits_then measured _ _ fed); [vm_compute; reflexivity|]. now left.
  - rewrite fed_eq. split; vm_compute; reflexivity.
  - intros k. unfold uniform, third. lra.
  - rewrite fed_eq. eexists. split; [reflexivity|]. split; [reflexivity|]. split; [reflexivity|].
    split; [|split; [|split; [|split; [|split; [|split]]]]].
    + intros o y Ho Ey. cbn in Ho. destruct Ho as [<-|[<-|[<-|[]]]]; cbn in Ey; injection Ey as <-; try is_ready.
      constructor; cbn; [repeat constructor| | | |].
      * eexists. split; [reflexivity|]. intros k [= <-]. split; [intros _; repeat (apply NoDup_cons; [cbn; intuition discriminate|]); apply NoDup_nil|intros [H|H]; discriminate H].
      * intros k [= <-]. discriminate.
      * discriminate.
      * intros l [= <-]. repeat constructor. eexists. reflexivity.
    + intros y l [= <-]. discriminate.
    + eexists _, _, _, _, 0. repeat split; try reflexivity. cbn. lia.
    + cbn. lia.
    + eexists _, _. repeat split; try reflexivity. now left.
    + intros before o after b E (y & l & Ey & El & Hb). destruct before as [|b0 [|b1 [|b2 [|]]]]; try discriminate E; injection E as; subst.
      * cbn in Ey. injection Ey as <-. discriminate El.
      * cbn in Ey. injection Ey as <-. discriminate El.
      * cbn in Ey. injection Ey as <-. cbn in El. injection El as <-. destruct Hb as [[= <-]|[]]. left. exists 1. split; [cbn; auto|]. split.
        -- intros y l [= <-]. discriminate.
        -- eexists _, _, _, _, 0. repeat split; try reflexivity. cbn. lia.
    + eexists _, _. repeat split; reflexivity.
Qed.

(** ** Full statement: simulating again gives the same.  False when a condition comes before the measurement of
    its bit: X().conditional(bit), X(), Measurement() | bit is in state 0 after the first simulation and in
    state 1 after the second, with the same random numbers, and the bit holds 0 and then 1. *)
Definition flipping : sprog :=
  does [CNew _ false (Some 1) (Some 1); CConstruct 22 None (AQ (Some [IQubit 0])); CStore _ 0 [IBit 0];
        CConstruct 1 None (AQ (Some [IQubit 0])); CCond _ 1 [IBit 0]; CConstruct 1 None (AQ (Some [IQubit 0]));
        CAppend _ 0 1; CAppend _ 0 2; CAppend _ 0 0].
Definition flipped : session := fst (srun rtrue req flipping (begin library_classes)).
Definition flipped_world : world R := ltac:(let w := eval vm_compute in (s_w flipped) in exact w).
Lemma flipped_eq : s_w flipped = flipped_world.
Proof. vm_compute. reflexivity. Qed.

Definition flipped_circ : circ := ltac:(let x := eval vm_compute in (match nth_error (w_circ flipped_world) 0 with Some x => x | None => mkCirc [] (mkSide [] None) (mkSide [] None) false None false [] false end) in exact x).
Lemma flipped_ready o y : In o (c_ops flipped_circ) -> nth_error (w_op flipped_world) o = Some y -> ready flipped_world flipped_circ o y.
Proof.
  intros Ho Ey. cbn in Ho. destruct Ho as [<-|[<-|[<-|[]]]]; cbn in Ey; injection Ey as <-; try is_ready.
  constructor; cbn; [repeat constructor| | | |].
  - eexists. split; [reflexivity|]. intros k [= <-]. split; [intros _; repeat (apply NoDup_cons; [cbn; intuition discriminate|]); apply NoDup_nil|intros [H|H]; discriminate H].
  - intros k [= <-]. discriminate.
  - discriminate.
  - intros l [= <-]. repeat constructor. eexists. reflexivity.
Qed.

Lemma flipflop_ready : wf_circ flipflop /\ unitary_circ flipflop.
Proof. split; apply PropsSim.C29_example. Qed.

Lemma flip_sim (s : session) : seen (s_w s) 0 = Some flipflop -> 0 < List.length (w_bit (s_w s)) ->
  let b := match bit_value R (s_w s) 0 with Some false => true | _ => false end in
  exists s' a m, sim 0 false false third s = (s', Ok tt) /\ s_st s' 0 = mkCst (Some (mkArr [2]%N a)) None /\ basis_state (N.b2n b) a /\
    bit_value R (s_w s') 0 = Some b /\ s_w s' = put_bits m (fst (qubits 0 (s_w s))) /\ m 0 = Some b.
Proof.
  intros Es Hl b. assert (Hu : forall k, uniform (third k)) by (intros k; unfold uniform, third; lra).
  destruct (flipflop_run third (found s) Hu) as (m & a & E1 & E2 & E3).
  destruct (simulate_sets_state third flipflop false (found s) (s_st s 0) Hu (proj1 flipflop_ready) (proj2 flipflop_ready) ltac:(discriminate) ltac:(discriminate))
    as (m' & a' & F1 & F2 & _).
  rewrite E1 in F2. injection F2 as <- <-. unfold sim. rewrite Es, F1. eexists _, a, (m_bits Ccring m). split; [reflexivity|]. cbn [s_st s_w].
  split; [reflexivity|]. split; [exact E3|]. split; [|split; [reflexivity|exact E2]]. rewrite put_value by (now rewrite qubits_bits). exact E2.
Qed.

Theorem C76_again_refuted :
  exists p s x s1 s2 (rnd : nat -> R),
    sexecutes rtrue req (own_ok R) p (begin library_classes) /\ svisits rtrue req p (begin library_classes) s /\ small R (s_w s) /\
    nth_error (w_circ (s_w s)) 0 = Some x /\
    (forall o y, In o (c_ops x) -> nth_error (w_op (s_w s)) o = Some y -> ready (s_w s) x o y) /\
    (forall k, uniform (rnd k)) /\ List.length (circuit_qubits x) = 1 /\
    sim 0 false false rnd s = (s1, Ok tt) /\ sim 0 false false rnd s1 = (s2, Ok tt) /\
    s_st s2 0 <> s_st s1 0 /\ bit_value R (s_w s1) 0 = Some false /\ bit_value R (s_w s2) 0 = Some true.
Proof.
  assert (Es : seen (s_w flipped) 0 = Some flipflop) by (rewrite flipped_eq; reflexivity).
  destruct (flip_sim flipped Es) as (s1 & a1 & m1 & S1 & T1 & U1 & B1 & W1 & _); [rewrite flipped_eq; cbn; lia|].
  destruct (flip_sim s1) as (s2 & a2 & m2 & S2 & T2 & U2 & B2 & _ & _).
  { rewrite W1. now apply SessionProofs3.seen_again. }
  { rewrite W1, flipped_eq. vm_compute. lia. }
  rewrite B1 in U2, B2. assert (B0 : bit_value R (s_w flipped) 0 = None) by (rewrite flipped_eq; reflexivity). rewrite B0 in *.
  exists flipping, flipped, flipped_circ, s1, s2, third.
  split; [vm_compute; repeat split; auto; intros H; try destruct H; try discriminate|].
  split; [right; left; reflexivity|]. rewrite flipped_eq. split; [split; vm_compute; reflexivity|]. split; [reflexivity|]. split; [|split; [|split; [reflexivity|]]].
  - exact flipped_ready.
  - intros k. unfold uniform, third. lra.
  - split; [exact S1|]. split; [exact S2|]. split; [|split; [exact B1|exact B2]].
    rewrite T1, T2. intros [= E]. assert (H : a2 0%N = a1 0%N) by now rewrite E.
    rewrite (U2 0%N ltac:(lia)), (U1 0%N ltac:(lia)) in H. cbn in H. injection H as H. lra.
Qed.
Print Assumptions C76_again_refuted.

(** ** Full statement: after a simulation the circuit can be reset.  False: when the measurement has stored 0 in
    the first bit, [reset] raises AttributeError (C21); the operations are gone, the bit keeps its value. *)
Definition zero_bit (b : nat) : option bool := match b with 0 => Some false | _ => None end.
Definition stored_world : world R :=
  ltac:(let w := eval vm_compute in (put_bits zero_bit (fst (qubits 0 flipped_world))) in exact w).
Lemma stored_eq m : m 0 = Some false -> put_bits m (fst (qubits 0 flipped_world)) = stored_world.
Proof. intros H. vm_compute. now rewrite H. Qed.
Definition emptied_world : world R := ltac:(let w := eval vm_compute in (fst (do_call rtrue req (CReset _ 0 true) stored_world)) in exact w).
Lemma emptied_eq : do_call rtrue req (CReset _ 0 true) stored_world = (emptied_world, Err AttributeError).
Proof. vm_compute. reflexivity. Qed.
Lemma flipping_runs : srun rtrue req flipping (begin library_classes) = (flipped, Ok tt).
Proof. vm_compute. reflexivity. Qed.
Lemma flipping_own : sexecutes rtrue req (own_ok R) flipping (begin library_classes).
Proof. vm_compute; repeat split; auto; intros H; try destruct H; try discriminate. Qed.

Lemma runs_then p q s s' : srun rtrue req p s = (s', Ok tt) -> srun rtrue req (SSeq p q) s = srun rtrue req q s'.
Proof. intros E. cbn [srun]. now rewrite E. Qed.
Lemma runs_sim c mixed le rnd s : srun rtrue req (SSim c mixed le rnd) s = sim c mixed le rnd s.
Proof. reflexivity. Qed.
Lemma runs_do x s w w' r : s_w s = w -> do_call rtrue req x w = (w', r) -> srun rtrue req (SDo x) s = (with_world s w', r).
Proof. intros E H. cbn [srun]. unfold lift. now rewrite E, H. Qed.

Theorem C76_reset_refuted :
  exists p s1 s2 (rnd : nat -> R) x x',
    sexecutes rtrue req (own_ok R) p (begin library_classes) /\ (forall k, uniform (rnd k)) /\
    srun rtrue req (SSeq p (SSim 0 false false rnd)) (begin library_classes) = (s1, Ok tt) /\
    srun rtrue req (SDo (CReset _ 0 true)) s1 = (s2, Err AttributeError) /\
    nth_error (w_circ (s_w s1)) 0 = Some x /\ c_ops x = [1; 2; 0] /\ bit_value R (s_w s1) 0 = Some false /\
    nth_error (w_circ (s_w s2)) 0 = Some x' /\ c_ops x' = [] /\ bit_value R (s_w s2) 0 = Some false.
Proof.
  assert (Es : seen (s_w flipped) 0 = Some flipflop) by (rewrite flipped_eq; reflexivity).
  destruct (flip_sim flipped Es) as (s1 & a1 & m1 & S1 & _ & _ & _ & W1 & M1); [rewrite flipped_eq; cbn; lia|].
  assert (B0 : bit_value R (s_w flipped) 0 = None) by (rewrite flipped_eq; reflexivity). rewrite B0 in M1. cbv iota in M1.
  rewrite flipped_eq, (stored_eq m1 M1) in W1.
  exists flipping, s1, (with_world s1 emptied_world), third. eexists _, _.
  split; [exact flipping_own|]. split; [intros k; unfold uniform, third; lra|].
  split; [rewrite (runs_then _ _ _ _ flipping_runs), runs_sim; exact S1|].
  split; [rewrite (runs_do _ _ _ _ _ W1 emptied_eq); reflexivity|].
  rewrite W1. split; [reflexivity|]. split; [reflexivity|]. split; [reflexivity|]. split; [reflexivity|]. split; reflexivity.
Qed.
Print Assumptions C76_reset_refuted.

(** A circuit without measurements, for C76_little_endian and C76_mixed. *)
Definition entangle : sprog :=
  SWith 0 (does [CConstruct 4 None (AQ (Some [IQubit 0])); CConstruct 11 None (ACT (Some [IQubit 0]) (Some [IQubit 1]))]).
Definition entangled : session := fst (srun rtrue req entangle prepared).
Definition entangled_world : world R := ltac:(let w := eval vm_compute in (s_w entangled) in exact w).
Lemma entangled_eq : s_w entangled = entangled_world.
Proof. vm_compute. reflexivity. Qed.
Example C76_gates_case :
  sexecutes rtrue req (own_ok R) (SSeq prepare entangle) (begin (library_classes ++ [])%list) /\
  svisits rtrue req (SSeq prepare entangle) (begin (library_classes ++ [])%list) entangled /\ small R (s_w entangled) /\
  exists x, nth_error (w_circ (s_w entangled)) 0 = Some x /\ c_ops x = [0; 1] /\ List.length (circuit_qubits x) = 2 /\
    (forall o y, In o (c_ops x) -> nth_error (w_op (s_w entangled)) o = Some y -> ready (s_w entangled) x o y) /\
    (forall o, In o (c_ops x) -> ~ measures (s_w entangled) o).
Proof.
  rewrite app_nil_r. split; [|split; [|split]].
  - vm_compute. repeat split; auto; intros H; try destruct H; try discriminate.
  - apply (visits_then prepare _ _ prepared); [vm_compute; reflexivity|]. right. left. reflexivity.
  - rewrite entangled_eq. split; vm_compute; reflexivity.
  - rewrite entangled_eq. eexists. split; [reflexivity|]. split; [reflexivity|]. split; [reflexivity|]. split.
    + intros o y Ho Ey. cbn in Ho. destruct Ho as [<-|[<-|[]]]; cbn in Ey; injection Ey as <-; is_ready.
    + intros o Ho (y & k & E1 & E2 & E3). cbn in Ho. destruct Ho as [<-|[<-|[]]]; cbn in E1; injection E1 as <-; cbn in E2; injection E2 as <-; discriminate E3.
Qed.

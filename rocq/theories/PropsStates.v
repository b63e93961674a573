(** Property C79: the state and the density matrix of circuits in programs. *)
From Coq Require Import List NArith ZArith Arith String Bool Lia Reals Lra.
From Verif Require Import Py CRing Cplx KernelSpec SimModel SimSpec SimReal SimProofs6 GateModel StateModel StateSpec StateProofs
  RegisterModel WorldModel WorldSpec WorldSpec4 WorldCheck LinkModel LinkSpec LinkProofs SampleModel SessionModel SessionSpec
  SessionProofs SessionProofs2 StatesSpec StatesProofs PropsLink PropsSession.
Import ListNotations.
Local Open Scope nat_scope.
Local Open Scope string_scope.

(** ** C79: whatever a program builds, calls, simulates and sets, and wherever it fails, every circuit has at all
    times no state, a vector of 2^k amplitudes (k > 0) of norm 1 up to numpy's tolerances, such a vector with
    the matrix of the products of its amplitudes, or a matrix of that norm with 2^k rows and columns. *)
Theorem C79_lawful :
  forall ptrue peqb ks p s, svisits ptrue peqb p (begin ks) s -> forall c, lawful (s_st s c).
Proof. exact states_lawful. Qed.
Print Assumptions C79_lawful.

(** Only simulating a circuit, setting its state or reading its density matrix changes what it holds. *)
Theorem C79_kept :
  forall ptrue peqb c p s t, ~ concerns c p -> svisits ptrue peqb p s t -> s_st t c = s_st s c.
Proof. exact states_kept. Qed.
Print Assumptions C79_kept.

(** A state that is there stays and can only be replaced with [force]. *)
Theorem C79_stays :
  forall ptrue peqb c p s t, ~ concerns c p -> svisits ptrue peqb p s t -> is_set (s_st s c) ->
    s_st t c = s_st s c /\ forall a z, srun ptrue peqb (SSet c a false z) t = (t, Err CircuitError).
Proof. exact stays. Qed.
Print Assumptions C79_stays.

(** Apart from reading [state] and setting it without [force], nothing depends on the states of circuits: run
    where they are different, a program does the same to everything else and ends the same way.  In particular
    a simulation starts from |0...0> whatever state was set before. *)
Theorem C79_no_influence :
  forall ptrue peqb p, heedless p -> forall s t, same_but_states s t ->
    same_but_states (fst (srun ptrue peqb p s)) (fst (srun ptrue peqb p t)) /\
    snd (srun ptrue peqb p s) = snd (srun ptrue peqb p t).
Proof. exact run_alike. Qed.
Print Assumptions C79_no_influence.

(** A simulation that raises changes no state. *)
Theorem C79_failed :
  forall c mixed le rnd s s' e, sim c mixed le rnd s = (s', Err e) -> forall c', s_st s' c' = s_st s c'.
Proof. exact sim_failed. Qed.
Print Assumptions C79_failed.

(** set_state in any state of a program that uses the circuits' own methods and keeps the registers: what it
    accepts depends on the qubits that the circuit has now; it changes nothing else, and a refused call changes
    no state either. *)
Theorem C79_set_partial :
  forall ptrue peqb ks p s c x,
    sexecutes ptrue peqb (fun w y => own_methods R w y /\ keeps_registers R y) p (begin ks) ->
    svisits ptrue peqb p (begin ks) s -> small R (s_w s) -> nth_error (w_circ (s_w s)) c = Some x ->
    let n := List.length (circuit_qubits x) in
    forall a force, exists s' r, set_st c a force false s = (s', r) /\
      same_but_bits c (s_w s) (s_w s') /\ w_bit (s_w s') = w_bit (s_w s) /\ s_mst s' = s_mst s /\ s_idx s' = s_idx s /\
      (forall c', c' <> c -> s_st s' c' = s_st s c') /\
      (r = Ok tt <-> (force = true \/ ~ is_set (s_st s c)) /\ 1 <= n /\ right_shape (N.of_nat n) a /\
         (Rabs (norm a - 1) <= 1 / 100000000 + 1 / 100000)%R) /\
      (r = Ok tt -> holds (s_st s' c) a) /\
      (r <> Ok tt -> s_st s' c = s_st s c /\
         r = Err (if force then ValueError else match s_st s c with mkCst None None => ValueError | _ => CircuitError end)).
Proof. exact set_plain. Qed.
Print Assumptions C79_set_partial.

(** With [normalize], any array of the right shape that is not 0 is accepted and divided by its norm. *)
Theorem C79_set_normalize_partial :
  forall ptrue peqb ks p s c x,
    sexecutes ptrue peqb (fun w y => own_methods R w y /\ keeps_registers R y) p (begin ks) ->
    svisits ptrue peqb p (begin ks) s -> small R (s_w s) -> nth_error (w_circ (s_w s)) c = Some x ->
    let n := List.length (circuit_qubits x) in
    forall a force, exists s' r, set_st c a force true s = (s', r) /\
      same_but_bits c (s_w s) (s_w s') /\ w_bit (s_w s') = w_bit (s_w s) /\ s_mst s' = s_mst s /\ s_idx s' = s_idx s /\
      (forall c', c' <> c -> s_st s' c' = s_st s c') /\
      (r = Ok tt <-> (force = true \/ ~ is_set (s_st s c)) /\ 1 <= n /\ right_shape (N.of_nat n) a /\ norm a <> 0%R) /\
      (r = Ok tt -> exists b, holds (s_st s' c) b /\ shape b = shape a /\ norm b = 1%R /\
         forall i, data b i = Cmul (RtoC (1 / norm a)) (data a i)) /\
      (r <> Ok tt -> s_st s' c = s_st s c).
Proof. exact set_normalized. Qed.
Print Assumptions C79_set_normalize_partial.

(** ** A circuit with one qubit and no operations *)
Definition plain : sprog := does [CNew _ false (Some 1) None].
Definition lone : session := fst (srun rtrue req plain (begin library_classes)).
Definition lone_world : world R := ltac:(let w := eval vm_compute in (s_w lone) in exact w).
Lemma lone_eq : s_w lone = lone_world.
Proof. vm_compute. reflexivity. Qed.
Lemma plain_runs : srun rtrue req plain (begin library_classes) = (lone, Ok tt).
Proof. vm_compute. reflexivity. Qed.
Lemma plain_own : sexecutes rtrue req (own_ok R) plain (begin library_classes).
Proof. vm_compute; repeat split; auto; intros H; try destruct H; try discriminate. Qed.
Definition lone_circ : circ := ltac:(let x := eval vm_compute in (match nth_error (w_circ lone_world) 0 with Some x => x | None => mkCirc [] (mkSide [] None) (mkSide [] None) false None false [] false end) in exact x).
Definition counted_world : world R := ltac:(let w := eval vm_compute in (fst (qubits 0 lone_world)) in exact w).
Lemma third_uniform k : uniform (third k).
Proof. unfold uniform, third. lra. Qed.

Lemma lone_sim : exists s' a, sim 0 false false third lone = (s', Ok tt) /\ s_st s' 0 = mkCst (Some (mkArr [2]%N a)) None /\ s_w s' = counted_world.
Proof.
  assert (Es : seen (s_w lone) 0 = Some (mkScirc Ccring [0] [])) by (rewrite lone_eq; vm_compute; reflexivity).
  assert (W : wf_circ (mkScirc Ccring [0] [])).
  { split; [repeat constructor; intros []|]. split; [discriminate|intros o []]. }
  assert (U : unitary_circ (mkScirc Ccring [0] [])) by (intros o []).
  destruct (simulate_sets_state third (mkScirc Ccring [0] []) false (found lone) (s_st lone 0) third_uniform W U ltac:(discriminate) ltac:(discriminate))
    as (m & a & E1 & _ & _).
  eexists _, a. split; [unfold sim; rewrite Es, E1; reflexivity|]. split; [reflexivity|]. cbn [s_w]. rewrite lone_eq. vm_compute. reflexivity.
Qed.

(** Hypotheses of C79_set_partial, with an array it accepts and then refuses. *)
Definition up : arr := mkArr [2]%N (fun i => if (i =? 0)%N then C1 else C0).
Example C79_case :
  sexecutes rtrue req (fun w y => own_methods R w y /\ keeps_registers R y) plain (begin library_classes) /\
  svisits rtrue req plain (begin library_classes) lone /\ small R (s_w lone) /\ nth_error (w_circ (s_w lone)) 0 = Some lone_circ /\
  List.length (circuit_qubits lone_circ) = 1 /\ ~ is_set (s_st lone 0) /\ right_shape 1 up /\ norm up = 1%R /\
  (exists s, srun rtrue req (SSet 0 up false false) lone = (s, Ok tt) /\ is_set (s_st s 0)) /\
  ~ concerns 0 (SSeq (SDo (CReset _ 0 true)) (SSim 1 false false third)) /\ heedless (SSeq (SSet 0 up true false) (SSim 0 false false third)).
Proof.
  assert (Hn : norm up = 1%R).
  { rewrite norm_frob. apply (frob_normalised 1 (fun i => if (i =? 0)%N then C1 else C0)). cbv -[IZR Rmult Rplus Rminus Ropp]. lra. }
  assert (Hx : sexecutes rtrue req (fun w y => own_methods R w y /\ keeps_registers R y) plain (begin library_classes)) by (vm_compute; auto).
  assert (Hs : small R (s_w lone)) by (rewrite lone_eq; split; vm_compute; reflexivity).
  assert (Hc : nth_error (w_circ (s_w lone)) 0 = Some lone_circ) by (rewrite lone_eq; reflexivity).
  assert (Hv : svisits rtrue req plain (begin library_classes) lone) by (right; left; reflexivity).
  assert (Hu : ~ is_set (s_st lone 0)) by (intros [H|H]; apply H; reflexivity).
  repeat (split; [first [assumption|reflexivity]|]). split; [left; reflexivity|]. split; [exact Hn|]. split; [|split; [cbn; intuition discriminate|cbn; auto]].
  destruct (C79_set_partial rtrue req library_classes plain lone 0 lone_circ Hx Hv Hs Hc up false) as (s' & r & E & _ & _ & _ & _ & _ & A & B & _).
  assert (Hr : r = Ok tt).
  { apply A. split; [now right|]. split; [cbn; lia|]. split; [left; reflexivity|]. rewrite Hn, Rminus_diag_eq, Rabs_R0 by reflexivity. lra. }
  subst r. exists s'. split; [exact E|]. destruct (B eq_refl) as [[_ ->]|[_ ->]]; cbn; [left|right]; discriminate.
Qed.

(** ** Full statement: after [reset] the circuit can be used like a new one.  False: the state of the old
    operations stays (circuit.py:342-360), and set_state without [force] is refused. *)
Definition reset_world : world R := ltac:(let w := eval vm_compute in (fst (do_call rtrue req (CReset _ 0 true) counted_world)) in exact w).
Lemma reset_eq : do_call rtrue req (CReset _ 0 true) counted_world = (reset_world, Ok tt).
Proof. vm_compute. reflexivity. Qed.
Theorem C79_reset_refuted :
  exists p s x, sexecutes rtrue req (own_ok R) p (begin library_classes) /\
    srun rtrue req (SSeq p (SSeq (SSim 0 false false third) (SDo (CReset _ 0 true)))) (begin library_classes) = (s, Ok tt) /\
    nth_error (w_circ (s_w s)) 0 = Some x /\ c_ops x = [] /\ is_set (s_st s 0) /\
    forall a z, srun rtrue req (SSet 0 a false z) s = (s, Err CircuitError).
Proof.
  destruct lone_sim as (s1 & a & E1 & E2 & E3). exists plain, (with_world s1 reset_world). eexists.
  split; [exact plain_own|]. split.
  - rewrite (runs_then _ _ _ _ plain_runs). rewrite (runs_then (SSim 0 false false third) _ _ s1 E1). exact (runs_do _ _ _ _ _ E3 reset_eq).
  - split; [reflexivity|]. split; [reflexivity|]. assert (H : is_set (s_st (with_world s1 reset_world) 0)).
    { cbn [with_world s_st]. rewrite E2. left. discriminate. }
    split; [exact H|]. intros a0 z. exact (unforced 0 a0 z _ H).
Qed.
Print Assumptions C79_reset_refuted.

(** ** Full statement: the state of a circuit fits its qubits.  False: a qubit can be added after a simulation;
    the circuit then has two qubits and two amplitudes. *)
Definition grown_world : world R := ltac:(let w := eval vm_compute in (fst (do_call rtrue req (CAddQubit _ 0 ANone LNone) counted_world)) in exact w).
Lemma grown_eq : do_call rtrue req (CAddQubit _ 0 ANone LNone) counted_world = (grown_world, Ok tt).
Proof. vm_compute. reflexivity. Qed.
Theorem C79_fits_refuted :
  exists p s x a, sexecutes rtrue req (own_ok R) p (begin library_classes) /\
    srun rtrue req (SSeq p (SSeq (SSim 0 false false third) (SDo (CAddQubit _ 0 ANone LNone)))) (begin library_classes) = (s, Ok tt) /\
    nth_error (w_circ (s_w s)) 0 = Some x /\ List.length (circuit_qubits x) = 2 /\ st_state (s_st s 0) = Some a /\ shape a = [2]%N.
Proof.
  destruct lone_sim as (s1 & a & E1 & E2 & E3). exists plain, (with_world s1 grown_world). eexists _, _.
  split; [exact plain_own|]. split.
  - rewrite (runs_then _ _ _ _ plain_runs). rewrite (runs_then (SSim 0 false false third) _ _ s1 E1). exact (runs_do _ _ _ _ _ E3 grown_eq).
  - split; [reflexivity|]. split; [reflexivity|]. cbn [with_world s_st]. rewrite E2. split; reflexivity.
Qed.
Print Assumptions C79_fits_refuted.

(** ** Full statement: a refused simulation leaves the measurements as they were.  False: simulating a density
    matrix with a measurement raises TypeError after the measured state is stored (simulator.pyx:208-219,
    233-248); [sample] then fails with ValueError instead of saying that nothing was simulated. *)
Theorem C79_refused_refuted :
  exists p s s', sexecutes rtrue req (own_ok R) p (begin library_classes) /\ srun rtrue req p (begin library_classes) = (s, Ok tt) /\
    sim 0 true false third s = (s', Err TypeError) /\ s_mst s 0 = None /\ s_mst s' 0 <> None /\
    forall us, sample_list 1 0 (found s) QNone us 1 = Err CircuitError /\ sample_list 1 0 (found s') QNone us 1 = Err ValueError.
Proof.
  exists flipping, flipped, (fst (sim 0 true false third flipped)).
  assert (Es : seen (s_w flipped) 0 = Some flipflop) by (rewrite flipped_eq; reflexivity).
  assert (E : snd (simulate_C third flipflop true false (found flipped)) = Err TypeError) by (vm_compute; reflexivity).
  assert (M : m_state Ccring (fst (simulate_C third flipflop true false (found flipped))) 0 <> None) by (vm_compute; discriminate).
  assert (I : m_idx Ccring (fst (simulate_C third flipflop true false (found flipped))) 0 = []) by (vm_compute; reflexivity).
  assert (Esim : sim 0 true false third flipped = (mkSession (put_bits (m_bits Ccring (fst (simulate_C third flipflop true false (found flipped)))) (fst (qubits 0 (s_w flipped))))
     (set_at 0 (s_st flipped 0) (s_st flipped)) (m_state Ccring (fst (simulate_C third flipflop true false (found flipped))))
     (m_idx Ccring (fst (simulate_C third flipflop true false (found flipped)))), Err TypeError)).
  { unfold sim. rewrite Es. unfold simulate_set. destruct (simulate_C third flipflop true false (found flipped)) as [m r]. cbn [fst snd] in *. now subst r. }
  rewrite Esim. cbn [fst].
  split; [exact flipping_own|]. split; [exact flipping_runs|]. split; [reflexivity|]. split; [reflexivity|]. split; [exact M|].
  intros us. split; [reflexivity|]. clear E Esim. revert M I. generalize (fst (simulate_C third flipflop true false (found flipped))). intros m M I. unfold sample_list, sample_C, sample, found. cbn [m_state m_idx s_mst s_idx].
  destruct (m_state Ccring m 0); [|contradiction]. rewrite I. reflexivity.
Qed.
Print Assumptions C79_refused_refuted.

(** Property C77: measurements and samples in programs that simulate. *)
From Coq Require Import List NArith ZArith Arith String Bool Lia Reals Lra.
From Verif Require Import Py CRing Cplx KernelSpec SimModel SimSpec SimReal SimProofs2 SimProofs6 SimProofs7 MeasureSpec SampleModel SampleSpec GateModel StateModel RegisterModel
  WorldModel WorldSpec WorldSpec4 WorldCheck LinkModel LinkSpec PropsLink SessionModel SessionSpec SessionProofs3 PropsSession BornSpec BornProofs BornProofs2 BornProofs3.
Import ListNotations.
Local Open Scope nat_scope.

(** ** The bits after a simulation follow the Born rule *)

(** The first measurement of a circuit: the gates before it lead to a state [v], and for all outcomes [os] the random
    numbers with which the simulation leaves [os] in the bits form a box whose volume is the probability of [os]
    in [v]. *)
Theorem C77_born_partial :
  forall ptrue peqb extra p (s : session) c x,
    sexecutes ptrue peqb (own_ok R) p (begin (library_classes ++ extra)%list) ->
    svisits ptrue peqb p (begin (library_classes ++ extra)%list) s -> small R (s_w s) ->
    nth_error (w_circ (s_w s)) c = Some x ->
    (forall o y, In o (c_ops x) -> nth_error (w_op (s_w s)) o = Some y -> ready (s_w s) x o y) ->
    let n := List.length (circuit_qubits x) in 1 <= n -> n <= 30 ->
    forall before after o qs bs, c_ops x = (before ++ o :: after)%list ->
    (forall o', In o' before -> ~ measures (s_w s) o') -> measuring (s_w s) o qs bs -> always (s_w s) o ->
    List.length bs = List.length qs -> NoDup bs -> (forall o' b, In o' after -> In b bs -> ~ stores (s_w s) o' b) ->
    (forall b, In b bs -> b < List.length (w_bit (s_w s))) ->
    exists v ts, at_places x qs ts /\ prepares (s_w s) c before v /\ normalised (N.of_nat n) v /\
      forall os, List.length os = List.length qs ->
      exists bx : box, List.length bx = List.length qs /\ in_unit bx /\ volume bx = joint (N.of_nat n) ts os v /\
        forall rnd, (forall k, uniform (rnd k)) ->
        exists s', sim c false false rnd s = (s', Ok tt) /\
          (map (bit_value R (s_w s')) bs = map Some os <-> inside (map rnd (seq 0 (List.length qs))) bx).
Proof. exact session_born. Qed.
Print Assumptions C77_born_partial.

(** If the measurement is the last operation, the circuit is left in the projection of [v] on the outcomes. *)
Theorem C77_collapse_partial :
  forall ptrue peqb extra p (s : session) c x,
    sexecutes ptrue peqb (own_ok R) p (begin (library_classes ++ extra)%list) ->
    svisits ptrue peqb p (begin (library_classes ++ extra)%list) s -> small R (s_w s) ->
    nth_error (w_circ (s_w s)) c = Some x ->
    (forall o y, In o (c_ops x) -> nth_error (w_op (s_w s)) o = Some y -> ready (s_w s) x o y) ->
    let n := List.length (circuit_qubits x) in 1 <= n -> n <= 30 ->
    forall before o qs bs, c_ops x = (before ++ [o])%list ->
    (forall o', In o' before -> ~ measures (s_w s) o') -> measuring (s_w s) o qs bs -> always (s_w s) o ->
    List.length bs = List.length qs -> NoDup bs -> (forall b, In b bs -> b < List.length (w_bit (s_w s))) ->
    exists v ts, at_places x qs ts /\ prepares (s_w s) c before v /\ normalised (N.of_nat n) v /\
      forall rnd, (forall k, uniform (rnd k)) ->
      exists s' a os, sim c false false rnd s = (s', Ok tt) /\ s_st s' c = mkCst (Some (mkArr [2 ^ N.of_nat n]%N a)) None /\
        map (bit_value R (s_w s')) bs = map Some os /\ (0 < joint (N.of_nat n) ts os v)%R /\
        forall i, (i < 2 ^ N.of_nat n)%N ->
          a i = if shows (N.of_nat n) i ts os then Cmul (RtoC (1 / sqrt (joint (N.of_nat n) ts os v))) (v i) else C0.
Proof. exact session_collapse_last. Qed.
Print Assumptions C77_collapse_partial.

(** ** Samples *)

(** Before its first simulation a measurement cannot be sampled. *)
Theorem C77_unmeasured :
  forall ptrue peqb ks p (s : session) o, svisits ptrue peqb p (begin ks) s -> s_mst s o = None ->
    s_idx s o = [] /\ forall n a us num, sample_list n o (found s) a us num = Err CircuitError.
Proof. exact unmeasured. Qed.
Print Assumptions C77_unmeasured.

(** After its first simulation the samples of a measurement that occurs once in the circuit show the measured qubits,
    independently and with the probabilities of the state that was measured. *)
Theorem C77_sampled_partial :
  forall ptrue peqb extra p (s : session) c x (rnd : nat -> R),
    sexecutes ptrue peqb (own_ok R) p (begin (library_classes ++ extra)%list) ->
    svisits ptrue peqb p (begin (library_classes ++ extra)%list) s -> small R (s_w s) ->
    nth_error (w_circ (s_w s)) c = Some x ->
    (forall o y, In o (c_ops x) -> nth_error (w_op (s_w s)) o = Some y -> ready (s_w s) x o y) ->
    (forall k, uniform (rnd k)) ->
    let n := List.length (circuit_qubits x) in 1 <= n -> n <= 30 ->
    forall before after o y qs, c_ops x = (before ++ o :: after)%list -> ~ In o (before ++ after) ->
    measures (s_w s) o -> always (s_w s) o -> s_mst s o = None ->
    nth_error (w_op (s_w s)) o = Some y -> o_qubits y = Some (map IQubit qs) -> qs <> [] ->
    exists s' ts v, sim c false false rnd s = (s', Ok tt) /\ at_places x qs ts /\ s_mst s' o = Some v /\ normalised (N.of_nat n) v /\
      forall oss, (forall os, In os oss -> List.length os = List.length qs) ->
      exists bx : box, List.length bx = List.length oss * List.length qs /\ in_unit bx /\
        volume bx = product (map (fun os => joint (N.of_nat n) ts os v) oss) /\
        forall us, (forall k, uniform (us k)) ->
          (sample_list (N.of_nat n) o (found s') QNone us (List.length oss) = Ok (map (map bit_nat) oss) <->
           inside (map us (seq 0 (List.length oss * List.length qs))) bx).
Proof. exact session_first. Qed.
Print Assumptions C77_sampled_partial.

(** Later simulations add the measured qubits to those sampled before. *)
Theorem C77_sampled_again_partial :
  forall ptrue peqb extra p (s : session) c x (rnd : nat -> R),
    sexecutes ptrue peqb (own_ok R) p (begin (library_classes ++ extra)%list) ->
    svisits ptrue peqb p (begin (library_classes ++ extra)%list) s -> small R (s_w s) ->
    nth_error (w_circ (s_w s)) c = Some x ->
    (forall o y, In o (c_ops x) -> nth_error (w_op (s_w s)) o = Some y -> ready (s_w s) x o y) ->
    (forall k, uniform (rnd k)) ->
    let n := List.length (circuit_qubits x) in 1 <= n -> n <= 30 ->
    forall before after o, c_ops x = (before ++ o :: after)%list -> ~ In o (before ++ after) ->
    measures (s_w s) o -> always (s_w s) o -> (forall t, In t (s_idx s o) -> (t < N.of_nat n)%N) ->
    exists s' qs ts v y, sim c false false rnd s = (s', Ok tt) /\
      nth_error (w_op (s_w s)) o = Some y /\ o_qubits y = Some (map IQubit qs) /\ at_places x qs ts /\
      s_mst s' o = Some v /\ normalised (N.of_nat n) v /\ s_idx s' o = (s_idx s o ++ ts)%list /\
      forall oss, let l := (s_idx s o ++ ts)%list in l <> [] -> (forall os, In os oss -> List.length os = List.length l) ->
      exists bx : box, List.length bx = List.length oss * List.length l /\ in_unit bx /\
        volume bx = product (map (fun os => joint (N.of_nat n) l os v) oss) /\
        forall us, (forall k, uniform (us k)) ->
          (sample_list (N.of_nat n) o (found s') QNone us (List.length oss) = Ok (map (map bit_nat) oss) <->
           inside (map us (seq 0 (List.length oss * List.length l))) bx).
Proof. exact session_sampled. Qed.
Print Assumptions C77_sampled_again_partial.

(** ** Two entangled qubits, measured into two bits *)
Definition pair_program : sprog :=
  SSeq (does [CNew _ false (Some 2) (Some 2)])
    (SWith 0 (does [CConstruct 4 None (AQ (Some [IQubit 0])); CConstruct 11 None (ACT (Some [IQubit 0]) (Some [IQubit 1]));
                    CConstruct 22 None (AQ (Some [IQubit 0; IQubit 1])); CStore _ 2 [IBit 0; IBit 1]])).
Definition paired : session := fst (srun rtrue req pair_program (begin library_classes)).
Definition paired_world : world R := ltac:(let w := eval vm_compute in (s_w paired) in exact w).
Lemma paired_eq : s_w paired = paired_world.
Proof. vm_compute. reflexivity. Qed.
Lemma paired_fresh o : s_mst paired o = None /\ s_idx paired o = [].
Proof. split; reflexivity. Qed.

Example C77_case :
  sexecutes rtrue req (own_ok R) pair_program (begin (library_classes ++ [])%list) /\
  svisits rtrue req pair_program (begin (library_classes ++ [])%list) paired /\ small R (s_w paired) /\
  (forall o, s_mst paired o = None) /\
  exists x y, nth_error (w_circ (s_w paired)) 0 = Some x /\ List.length (circuit_qubits x) = 2 /\
    (forall o y, In o (c_ops x) -> nth_error (w_op (s_w paired)) o = Some y -> ready (s_w paired) x o y) /\
    c_ops x = ([0; 1] ++ [2])%list /\ (forall o', In o' [0; 1] -> ~ measures (s_w paired) o') /\
    measuring (s_w paired) 2 [0; 1] [0; 1] /\ always (s_w paired) 2 /\ measures (s_w paired) 2 /\
    (forall b, In b [0; 1] -> b < List.length (w_bit (s_w paired))) /\
    nth_error (w_op (s_w paired)) 2 = Some y /\ o_qubits y = Some (map IQubit [0; 1]).
Proof.
  rewrite app_nil_r. split; [|split; [|split; [|split]]].
  - vm_compute. repeat split; auto; intros H; try destruct H; try discriminate.
  - right. left. reflexivity.
  - rewrite paired_eq. split; vm_compute; reflexivity.
  - intros o. apply paired_fresh.
  - rewrite paired_eq. eexists _, _. split; [reflexivity|]. split; [reflexivity|].
    split; [|split; [reflexivity|split; [|split; [|split; [|split; [|split; [|split; reflexivity]]]]]]].
    + intros o y Ho Ey. cbn in Ho. destruct Ho as [<-|[<-|[<-|[]]]]; cbn in Ey; injection Ey as <-; is_ready.
    + intros o Ho (y & k & E1 & E2 & E3). cbn in Ho. destruct Ho as [<-|[<-|[]]]; cbn in E1; injection E1 as <-; cbn in E2; injection E2 as <-; discriminate E3.
    + eexists _, _. repeat split; reflexivity.
    + intros y l [= <-]. discriminate.
    + eexists _, _. repeat split; reflexivity.
    + cbn. intros b [<-|[<-|[]]]; lia.
Qed.

(** What a simulation does to a measurement that occurs once. *)
Lemma sim_attributes (s : session) c sc mid so : seen (s_w s) c = Some sc -> wf_circ sc -> unitary_circ sc -> (SimModel.num_qubits Ccring sc <= 30)%N ->
  measured_once (sc_ops Ccring sc) mid so ->
  exists s' ts v f, sim c false false third s = (s', Ok tt) /\ placed sc so ts /\ s_idx s' mid = (s_idx s mid ++ ts)%list /\ s_mst s' mid = Some v /\
    normalised (SimModel.num_qubits Ccring sc) v /\ s_w s' = put_bits f (fst (qubits c (s_w s))).
Proof.
  intros Es Hw Hu Hn Ho. assert (Ht : forall k, uniform (third k)) by (intros k; unfold uniform, third; lra).
  destruct (SimProofs5.simulate_again_attrs sc mid so [third] Hw Hu Hn Ho (fun r H => match H with or_introl E => eq_ind third (fun r => forall k, uniform (r k)) Ht r E | or_intror F => False_ind _ F end)
              ltac:(discriminate) (found s)) as (ts & v & P & _ & I & S & N).
  destruct (StateProofs.simulate_sets_state third sc false (found s) (s_st s c) Ht Hw Hu Hn ltac:(discriminate)) as (m & a & E1 & E2 & _).
  cbn [SimProofs5.simulate_again] in I, S. rewrite E2 in I, S. cbn in I, S. rewrite app_nil_r in I.
  unfold sim. rewrite Es, E1. eexists _, ts, v, _. split; [reflexivity|]. cbn. auto.
Qed.

Lemma same_ops c w f : w_op (put_bits f (fst (qubits c w))) = w_op w.
Proof. destruct (qubits_same c w f) as (_ & E & _). exact E. Qed.
Definition flipped_measurement : opobj R :=
  ltac:(let y := eval vm_compute in (nth_error (w_op flipped_world) 0) in match y with Some ?y => exact y end).

(** ** Full statement: sample() returns one value per measured qubit.  False after a second simulation: one measured
    qubit gives samples of two values. *)
Theorem C77_again_refuted :
  exists p s s1 s2 y, sexecutes rtrue req (own_ok R) p (begin library_classes) /\ srun rtrue req p (begin library_classes) = (s, Ok tt) /\
    sim 0 false false third s = (s1, Ok tt) /\ sim 0 false false third s1 = (s2, Ok tt) /\
    nth_error (w_op (s_w s2)) 0 = Some y /\ o_qubits y = Some [IQubit 0] /\
    exists ss, sample_list 1 0 (found s2) QNone third 1 = Ok ss /\ map (@List.length nat) ss = [2].
Proof.
  assert (Es : seen (s_w flipped) 0 = Some flipflop) by (rewrite flipped_eq; reflexivity).
  assert (Hm : measured_once (sc_ops Ccring flipflop) 0 (meas_op 0 0 0)) by exact PropsSim.flipflop_measured.
  destruct flipflop_ready as [Hw Hu].
  destruct (sim_attributes flipped 0 flipflop 0 _ Es Hw Hu ltac:(discriminate) Hm) as (s1 & ts & v & f & S1 & P1 & I1 & _ & _ & W1).
  destruct (sim_attributes s1 0 flipflop 0 (meas_op 0 0 0)) as (s2 & ts2 & v2 & f2 & S2 & P2 & I2 & M2 & N2 & W2); auto.
  { rewrite W1. now apply seen_again. }
  { discriminate. }
  assert (T : forall l, placed flipflop (meas_op 0 0 0) l -> l = [0%N]).
  { intros l (qs & Eq & F). injection Eq as <-. inversion F as [|? t ? l' H F']; subst. inversion F'; subst. f_equal.
    destruct (N.to_nat t) as [|[|k]] eqn:E; [|discriminate H|destruct k; discriminate H]. lia. }
  apply T in P1, P2. subst ts ts2. rewrite I1 in I2. assert (I0 : s_idx flipped 0 = []) by reflexivity. rewrite I0 in I2. cbn in I2.
  assert (Eo : w_op (s_w s2) = w_op flipped_world) by (rewrite W2, same_ops, W1, same_ops, flipped_eq; reflexivity).
  exists flipping, flipped, s1, s2, flipped_measurement. split; [exact flipping_own|]. split; [exact flipping_runs|]. split; [exact S1|]. split; [exact S2|].
  rewrite Eo. split; [reflexivity|]. split; [reflexivity|].
  assert (Ht : forall k, uniform (third k)) by (intros k; unfold uniform, third; lra).
  assert (Hch : chosen 0 (found s2) QNone = Some [0; 0]%N) by (cbn [chosen found m_idx]; now rewrite I2).
  assert (Hlt : forall q, In q [0; 0]%N -> (q < 1)%N) by (intros q [<-|[<-|[]]]; reflexivity).
  destruct (SampleProofs2.sample_possible 1 0 (found s2) QNone third 1 v2 [0; 0]%N ltac:(lia) Ht M2 N2 Hch ltac:(congruence) Hlt) as (oss & E & L & A).
  exists (map (map bit_nat) oss). split; [exact E|]. destruct oss as [|os [|]]; try discriminate L. destruct (A os (or_introl eq_refl)) as (i & _ & _ & ->). reflexivity.
Qed.
Print Assumptions C77_again_refuted.

(** One measurement in two circuits: circuit 0 has two qubits, circuit 1 only the second of them.  After both have been
    simulated the measured state is that of circuit 1, but the measured qubits are those of both: sample() raises
    ValueError. *)
Definition shared_program : sprog :=
  does [CNew _ false (Some 2) None; CNew _ false None None; CAddQubit _ 1 (AItem 1) LNone;
        CConstruct 22 None (AQ (Some [IQubit 1])); CAppend _ 0 0; CAppend _ 1 0].
Definition shared : session := fst (srun rtrue req shared_program (begin library_classes)).
Definition shared_world : world R := ltac:(let w := eval vm_compute in (s_w shared) in exact w).
Lemma shared_eq : s_w shared = shared_world.
Proof. vm_compute. reflexivity. Qed.
Definition look_at : sop Ccring := mkSop Ccring (KMeasure Ccring 0 None) (Some [1]) [].
Definition looks (qs : list nat) : scirc Ccring := mkScirc Ccring qs [look_at].
Lemma looks_ready qs : NoDup qs -> In 1 qs -> wf_circ (looks qs) /\ unitary_circ (looks qs) /\ measured_once (sc_ops Ccring (looks qs)) 0 look_at.
Proof.
  intros Hn Hi. split; [split; [exact Hn|split; [intros E; cbn in E; subst qs; destruct Hi|]]|split].
  - intros o [<-|[]]. exists [1]. split; [reflexivity|]. split; [intros q [<-|[]]; exact Hi|]. split; [discriminate|]. split; [discriminate|exact I].
  - intros o [<-|[]]. exact I.
  - exists [], [], None. repeat split. intros o [].
Qed.

Theorem C77_two_circuits_refuted :
  exists p s s1 s2 v, sexecutes rtrue req (own_ok R) p (begin library_classes) /\ srun rtrue req p (begin library_classes) = (s, Ok tt) /\
    sim 0 false false third s = (s1, Ok tt) /\ sim 1 false false third s1 = (s2, Ok tt) /\
    s_mst s2 0 = Some v /\ normalised 1 v /\ s_idx s2 0 = [1; 0]%N /\
    forall us num, sample_list 1 0 (found s2) QNone us num = Err ValueError.
Proof.
  assert (N2 : NoDup [0; 1]) by (repeat constructor; cbn; intuition discriminate).
  assert (N1 : NoDup [1]) by (repeat constructor; cbn; intuition discriminate).
  destruct (looks_ready [0; 1] N2 ltac:(cbn; auto)) as (A1 & A2 & A3).
  destruct (looks_ready [1] N1 ltac:(cbn; auto)) as (B1 & B2 & B3).
  assert (Es : seen (s_w shared) 0 = Some (looks [0; 1])) by (rewrite shared_eq; reflexivity).
  destruct (sim_attributes shared 0 _ 0 _ Es A1 A2 ltac:(discriminate) A3) as (s1 & ts & v & f & S1 & P1 & I1 & _ & _ & W1).
  assert (Es1 : seen (s_w s1) 1 = Some (looks [1])) by (rewrite W1, shared_eq; reflexivity).
  destruct (sim_attributes s1 1 _ 0 _ Es1 B1 B2 ltac:(discriminate) B3) as (s2 & ts2 & v2 & f2 & S2 & P2 & I2 & M2 & Nv & _).
  assert (T1 : ts = [1%N]).
  { destruct P1 as (qs & Eq & F). injection Eq as <-. inversion F as [|? t ? l' H F']; subst. inversion F'; subst. f_equal.
    destruct (N.to_nat t) as [|[|[|k]]] eqn:E; [discriminate H|lia|discriminate H|discriminate H]. }
  assert (T2 : ts2 = [0%N]).
  { destruct P2 as (qs & Eq & F). injection Eq as <-. inversion F as [|? t ? l' H F']; subst. inversion F'; subst. f_equal.
    destruct (N.to_nat t) as [|[|k]] eqn:E; [lia|discriminate H|destruct k; discriminate H]. }
  rewrite I1, T1, T2 in I2. assert (I0 : s_idx shared 0 = []) by reflexivity. rewrite I0 in I2. cbn [app] in I2.
  exists shared_program, shared, s1, s2, v2. split; [vm_compute; repeat split; auto; intros H; try destruct H; try discriminate|].
  split; [vm_compute; reflexivity|]. split; [exact S1|]. split; [exact S2|]. split; [exact M2|]. split; [exact Nv|]. split; [exact I2|].
  intros us num. destruct (SampleProofs2.sample_errors 1 0 (found s2) QNone us num) as (_ & A & _).
  destruct (A v2 M2) as (_ & B). apply (B [1; 0]%N); [cbn [chosen found m_idx]; now rewrite I2|]. right. exists 1%N. split; [now left|lia].
Qed.
Print Assumptions C77_two_circuits_refuted.

(** Sampling, noise channels. *)
From Coq Require Import List NArith Arith Bool Lia Reals Lra.
From Verif Require Import Py CRing Cplx KernelModel KernelSpec KernelBits KernelProofs KernelProofs2 SimModel SimSpec
  SimReal SimProofs SimProofs2 SimProofs3 SimProofs4.
Import ListNotations.
Local Open Scope R_scope.
Notation mem := (mem Ccring).

(** ** Sampling *)
Lemma sample_once_ok n qs (us : nat -> R) : (n <= 30)%N -> (forall q, In q qs -> (q < n)%N) ->
  (forall k, uniform (us k)) -> forall k v, normalised n v ->
  exists os, sample_once Ccring R Cgtb Cis0 Cinvsqrt n qs us k v = Ok (os, (k + length qs)%nat) /\
    length os = length qs /\ Forall (fun o => o = 0%nat \/ o = 1%nat) os.
Proof.
  intros Hn Hq Hu. induction qs as [|q qs IH]; intros k v Hv.
  - exists []. cbn. rewrite Nat.add_0_r. auto.
  - destruct (measurement_correct false n q (us k) v Hn (Hq q (or_introl eq_refl)) Hv (Hu k))
      as (o & v' & E & _ & _ & Hv' & _).
    destruct (IH (fun x Hx => Hq x (or_intror Hx)) (S k) v' Hv') as (os & Eo & Hl & Hf).
    exists ((if o then 1%nat else 0%nat) :: os). cbn [sample_once]. fold sample_qubit_C. rewrite E. cbn [bind].
    rewrite Eo. cbn [bind length]. replace (k + S (length qs))%nat with (S k + length qs)%nat by lia.
    split; [reflexivity|]. split; [now rewrite Hl|]. constructor; [destruct o; auto|exact Hf].
Qed.

Lemma sample_many_ok n qs (us : nat -> R) : (n <= 30)%N -> (forall q, In q qs -> (q < n)%N) ->
  (forall k, uniform (us k)) -> forall num k v, normalised n v ->
  exists ss, sample_many Ccring R Cgtb Cis0 Cinvsqrt n qs us k num v = Ok ss /\ length ss = num /\
    Forall (fun os => length os = length qs /\ Forall (fun o => o = 0%nat \/ o = 1%nat) os) ss.
Proof.
  intros Hn Hq Hu. induction num as [|num IH]; intros k v Hv; [exists []; cbn; auto|].
  destruct (sample_once_ok n qs us Hn Hq Hu k v Hv) as (os & E & Hl & Hf).
  destruct (IH (k + length qs)%nat v Hv) as (ss & Es & Hls & Hfs).
  exists (os :: ss). cbn [sample_many]. rewrite E. cbn [bind]. rewrite Es. cbn [bind length].
  split; [reflexivity|]. split; [now rewrite Hls|]. constructor; auto.
Qed.

Section Run.
Variable rnd : nat -> R.
Hypothesis Hrnd : forall k, uniform (rnd k).

Definition wf_all (c : scirc Ccring) (ops : list (sop Ccring)) : Prop :=
  forall o, In o ops -> wf_op c o /\ unitary_kind (so_kind Ccring o).

Lemma run_measured c ops mid o : (num_qubits Ccring c <= 30)%N -> NoDup (sc_qubits Ccring c) ->
  wf_all c ops -> measured_once ops mid o ->
  forall (m : mem) v, normalised (num_qubits Ccring c) v ->
  exists ts m' w v0, placed c o ts /\ (forall t, In t ts -> (t < num_qubits Ccring c)%N) /\
    run_pure_C rnd c false ops m v = (m', Ok w) /\
    m_idx Ccring m' mid = m_idx Ccring m mid ++ ts /\
    m_state Ccring m' mid = Some v0 /\ normalised (num_qubits Ccring c) v0.
Proof.
  intros Hn Hnd Hw (ops1 & ops2 & bits & -> & Ek & Ec & Hother) m v Hv.
  assert (Hw1 : wf_all c ops1) by (intros x Hx; apply Hw, in_or_app; auto).
  assert (Hw2 : wf_all c ops2) by (intros x Hx; apply Hw, in_or_app; right; now right).
  destruct (run_pure_norm rnd Hrnd c false ops1 Hn Hnd) with (m := m) (v := v) as (m1 & v1 & E1 & Hv1);
    [intros x Hx; destruct (Hw1 x Hx); repeat split; auto; discriminate|exact Hv|].
  assert (Hwo : wf_op c o) by (apply Hw, in_or_app; right; now left).
  destruct (placed_wf Ccring c o Hwo) as (ts & Et & Hp & Hl & _).
  destruct (measure_loop_ok rnd Hrnd (num_qubits Ccring c) mid bits ts Hn Hl 0%nat (set_mstate Ccring mid v1 m1) v1 Hv1)
    as (m2 & v2 & E2 & Hv2).
  destruct (run_pure_norm rnd Hrnd c false ops2 Hn Hnd) with (m := m2) (v := v2) as (m3 & v3 & E3 & Hv3);
    [intros x Hx; destruct (Hw2 x Hx); repeat split; auto; discriminate|exact Hv2|].
  assert (Hb : is_blocked Ccring m1 o = false) by (unfold is_blocked; now rewrite Ec).
  exists ts, m3, v3, v1. split; [exact Hp|]. split; [exact Hl|].
  pose proof (run_frame Ccring R Cgtb Cis0 Cinvsqrt rnd c false ops1 mid) as F1.
  specialize (F1 (fun x Hx => Hother x (in_or_app _ _ _ (or_introl Hx))) m v). cbv zeta in F1.
  pose proof (run_frame Ccring R Cgtb Cis0 Cinvsqrt rnd c false ops2 mid) as F3.
  specialize (F3 (fun x Hx => Hother x (in_or_app _ _ _ (or_intror Hx))) m2 v2). cbv zeta in F3.
  unfold run_pure_C in *. rewrite E1 in F1. rewrite E3 in F3. cbn [fst] in F1, F3.
  apply measure_attrs in E2 as A2.
  split.
  - rewrite run_pure_app, E1. cbn [run_pure]. rewrite Et. unfold apply_instruction. rewrite Hb, Ek.
    unfold measure. rewrite E2. exact E3.
  - destruct F1 as [F1 _]. destruct F3 as [F3 F3']. destruct A2 as [A2 A2'].
    rewrite F3, A2. rewrite F3', A2'. cbn [set_mstate m_idx m_state]. rewrite F1, Nat.eqb_refl. auto.
Qed.
End Run.

(** Simulating the same circuit again and again, with any random numbers. *)
Fixpoint simulate_again (rnds : list (nat -> R)) (c : scirc Ccring) (m : mem) : mem :=
  match rnds with
  | [] => m
  | rnd :: rest => simulate_again rest c (fst (simulate_C rnd c false false m))
  end.

Lemma simulate_again_attrs c mid o rnds : wf_circ c -> unitary_circ c -> (num_qubits Ccring c <= 30)%N ->
  measured_once (sc_ops Ccring c) mid o -> (forall rnd, In rnd rnds -> forall k, uniform (rnd k)) ->
  rnds <> [] -> forall m : mem, exists ts v0, placed c o ts /\ (forall t, In t ts -> (t < num_qubits Ccring c)%N) /\
    m_idx Ccring (simulate_again rnds c m) mid = m_idx Ccring m mid ++ concat (repeat ts (length rnds)) /\
    m_state Ccring (simulate_again rnds c m) mid = Some v0 /\ normalised (num_qubits Ccring c) v0.
Proof.
  intros (Hnd & Hne & Hw) Hu Hn Ho Hr Hnr.
  assert (Hall : wf_all c (sc_ops Ccring c)) by (intros x Hx; split; auto).
  assert (Step : forall rnd (m : mem), (forall k, uniform (rnd k)) -> exists ts v0, placed c o ts /\
    (forall t, In t ts -> (t < num_qubits Ccring c)%N) /\
    m_idx Ccring (fst (simulate_C rnd c false false m)) mid = m_idx Ccring m mid ++ ts /\
    m_state Ccring (fst (simulate_C rnd c false false m)) mid = Some v0 /\ normalised (num_qubits Ccring c) v0).
  { intros rnd m Hrnd. destruct (run_measured rnd Hrnd c (sc_ops Ccring c) mid o Hn Hnd Hall Ho m (zero_state Ccring))
      as (ts & m' & w & v0 & H1 & H2 & H3 & H4 & H5 & H6); [apply zero_normalised|].
    exists ts, v0. unfold simulate_C, simulate. destruct (sc_qubits Ccring c); [congruence|].
    unfold run_pure_C in H3. rewrite H3. cbn [fst]. auto. }
  induction rnds as [|rnd rnds IH]; [congruence|]. intros m.
  destruct (Step rnd m (Hr rnd (or_introl eq_refl))) as (ts & v0 & H1 & H2 & H3 & H4 & H5).
  cbn [simulate_again length repeat concat].
  destruct rnds as [|rnd' rnds'].
  - exists ts, v0. cbn [simulate_again length repeat concat]. rewrite app_nil_r. auto.
  - destruct (IH (fun r Hin => Hr r (or_intror Hin)) ltac:(discriminate) (fst (simulate_C rnd c false false m)))
      as (ts' & v0' & G1 & G2 & G3 & G4 & G5).
    assert (ts' = ts) by (eapply placed_unique; eauto). subst ts'.
    exists ts, v0'. rewrite G3, H3, <- app_assoc. auto.
Qed.

Theorem sample_after_runs c mid o rnds (m : mem) : wf_circ c -> unitary_circ c -> (num_qubits Ccring c <= 30)%N ->
  measured_once (sc_ops Ccring c) mid o -> (forall rnd, In rnd rnds -> forall k, uniform (rnd k)) ->
  rnds <> [] -> m_idx Ccring m mid = [] -> so_qubits Ccring o <> Some [] ->
  exists ts, placed c o ts /\ forall (us : nat -> R) num, (forall k, uniform (us k)) ->
    exists ss, sample_C (num_qubits Ccring c) mid (simulate_again rnds c m) None us num = Ok ss /\
      length ss = num /\
      Forall (fun os => length os = (length rnds * length ts)%nat /\ Forall (fun x => x = 0%nat \/ x = 1%nat) os) ss.
Proof.
  intros Hwf Hu Hn Ho Hr Hnr Hm Hq.
  destruct (simulate_again_attrs c mid o rnds Hwf Hu Hn Ho Hr Hnr m) as (ts & v0 & H1 & H2 & H3 & H4 & H5).
  exists ts. split; [exact H1|]. intros us num Hus.
  rewrite Hm in H3. cbn [app] in H3. set (qs := concat (repeat ts (length rnds))) in *.
  assert (Hqs : forall q, In q qs -> (q < num_qubits Ccring c)%N).
  { intros q Hin. unfold qs in Hin. apply in_concat in Hin. destruct Hin as (l & Hl & Hin).
    apply repeat_spec in Hl. subst l. auto. }
  assert (Hlen : length qs = (length rnds * length ts)%nat).
  { unfold qs. clear. induction (length rnds) as [|k IH]; [reflexivity|]. cbn [repeat concat]. rewrite app_length, IH. lia. }
  destruct (sample_many_ok (num_qubits Ccring c) qs us Hn Hqs Hus num 0%nat v0 H5) as (ss & Es & Hls & Hf).
  exists ss. split; [|split; [exact Hls|]].
  - unfold sample_C, sample. rewrite H4, H3.
    assert (Hne : qs <> []).
    { destruct ts as [|t ts'].
      - exfalso. destruct H1 as (qs' & E & HF). inversion HF; subst. congruence.
      - unfold qs. destruct rnds; [congruence|]. discriminate. }
    destruct qs as [|q qs'] eqn:Eq; [congruence|].
    assert (Eb : forallb (fun q => N.ltb q (num_qubits Ccring c)) (q :: qs') = true).
    { apply forallb_forall. intros x Hx. apply N.ltb_lt. auto. }
    rewrite Eb. exact Es.
  - rewrite <- Hlen. exact Hf.
Qed.

(** ** Noise *)
Lemma const_entry_val x : entry_val (const_entry x) = RtoC x.
Proof. unfold const_entry. destruct (Req_EM_T x 0) as [->|]; [reflexivity|]. now destruct (Req_EM_T x 1) as [->|]. Qed.

Lemma lt2 i : (i < 2)%N -> i = 0%N \/ i = 1%N. Proof. lia. Qed.

Lemma diag2_val a b i j : (i < 2)%N -> (j < 2)%N ->
  vals (diag2 a b) i j = if N.eqb i j then RtoC (if N.eqb i 0 then a else b) else C0.
Proof.
  intros Hi Hj. unfold vals, diag2.
  destruct (lt2 i Hi) as [-> | ->], (lt2 j Hj) as [-> | ->]; cbn; rewrite ?const_entry_val; reflexivity.
Qed.

Lemma dephase_complete eps : 0 <= eps <= 1 -> @complete Ccring 2 (map vals (dephase_ops eps)).
Proof.
  intros H i j Hi Hj. unfold dephase_ops. change (Nrange 2) with [0%N; 1%N]. cbn [map sumf fold_right].
  assert (E1 : sqrt (1 - eps) * sqrt (1 - eps) = 1 - eps) by (apply sqrt_sqrt; lra).
  assert (E2 : sqrt eps * sqrt eps = eps) by (apply sqrt_sqrt; lra).
  rewrite !diag2_val by (auto; lia).
  destruct (lt2 i Hi) as [-> | ->], (lt2 j Hj) as [-> | ->]; cbn; ceq; ring [E1 E2].
Qed.

Lemma amp_damp_complete eps : 0 <= eps <= 1 -> @complete Ccring 2 (map vals (amp_damp_ops eps)).
Proof.
  intros H i j Hi Hj. unfold amp_damp_ops. change (Nrange 2) with [0%N; 1%N]. cbn [map sumf fold_right].
  assert (E1 : sqrt (1 - eps) * sqrt (1 - eps) = 1 - eps) by (apply sqrt_sqrt; lra).
  assert (E2 : sqrt eps * sqrt eps = eps) by (apply sqrt_sqrt; lra).
  rewrite !diag2_val by (auto; lia). unfold vals.
  destruct (lt2 i Hi) as [-> | ->], (lt2 j Hj) as [-> | ->]; cbn; rewrite ?const_entry_val; ceq; ring [E1 E2].
Qed.

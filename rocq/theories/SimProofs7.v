(** Measurements of several qubits: outcomes, bits, samples. *)
From Coq Require Import List NArith Arith Bool Lia Reals Lra.
From Verif Require Import Py CRing Cplx KernelModel KernelSpec KernelBits KernelProofs KernelProofs2 SimModel SimSpec
  SimReal SimProofs SimProofs2 SimProofs3 SimProofs4 SimProofs5 MeasureSpec.
Import ListNotations.
Local Open Scope R_scope.

Section Run.
Variable rnd : nat -> R.
Hypothesis Hrnd : forall k, uniform (rnd k).

Lemma measure_loop_spec n mid bs ts : (n <= 30)%N -> (forall t, In t ts -> (t < n)%N) -> NoDup bs ->
  forall idx (m : mem) v, normalised n v ->
  exists m' w os, measure_loop Ccring R Cgtb Cis0 Cinvsqrt rnd n mid (Some bs) idx ts m v = (m', Ok w) /\
    collapses n ts (map rnd (seq (m_pos Ccring m) (length ts))) os v w /\ normalised n w /\
    length os = length ts /\
    (forall k b, (idx <= k < idx + length ts)%nat -> nth_error bs k = Some b ->
       m_bits Ccring m' b = nth_error os (k - idx)) /\
    (forall b, (forall k, (idx <= k < idx + length ts)%nat -> nth_error bs k <> Some b) ->
       m_bits Ccring m' b = m_bits Ccring m b) /\
    m_pos Ccring m' = (m_pos Ccring m + length ts)%nat /\
    m_warn Ccring m' = (m_warn Ccring m + (length ts - (length bs - idx)))%nat.
Proof.
  intros Hn. induction ts as [|t ts IH]; intros Hl Hnd idx m v Hv.
  - exists m, v, []. cbn [measure_loop length seq map]. split; [reflexivity|]. split; [now constructor|].
    split; [exact Hv|]. split; [reflexivity|]. split; [intros; lia|]. split; [auto|]. split; lia.
  - cbn [measure_loop].
    destruct (measurement_correct false n t (rnd (m_pos Ccring m)) v Hn (Hl t (or_introl eq_refl)) Hv (Hrnd _))
      as (o & v' & E & Ho & Hpos & Hv' & Hval). fold sample_qubit_C. rewrite E.
    set (m3 := match nth_error bs idx with
               | Some b => set_bit Ccring b (Nat.eqb (if o then 1%nat else 0%nat) 1) (next_rnd Ccring m)
               | None => warn Ccring (next_rnd Ccring m) end).
    destruct (IH (fun x Hx => Hl x (or_intror Hx)) Hnd (S idx) (add_idx Ccring mid t m3) v' Hv')
      as (m' & w & os & E' & Hc & Hw & Hlen & Hb1 & Hb2 & Hp & Hwn).
    exists m', w, (o :: os). split; [exact E'|].
    assert (Hp3 : m_pos Ccring m3 = S (m_pos Ccring m)) by (unfold m3; destruct (nth_error bs idx); reflexivity).
    assert (Hpa : m_pos Ccring (add_idx Ccring mid t m3) = S (m_pos Ccring m)) by exact Hp3.
    split; [|split; [exact Hw|split; [cbn; lia|split; [|split; [|split]]]]].
    + cbn [length seq map]. rewrite Hpa in Hc. econstructor; eauto.
    + intros k b Hk Hbk. cbn [length] in Hk. destruct (Nat.eq_dec k idx) as [->|Hne].
      * rewrite Nat.sub_diag. cbn [nth_error].
        rewrite Hb2.
        -- cbn [add_idx m_bits]. unfold m3. rewrite Hbk. cbn [set_bit m_bits]. rewrite Nat.eqb_refl. destruct o; reflexivity.
        -- intros k' Hk' Hbk'.
           assert (k' = idx); [|lia].
           rewrite NoDup_nth_error in Hnd. apply Hnd; [apply nth_error_Some; congruence|congruence].
      * rewrite (Hb1 k b) by (auto; lia). replace (k - idx)%nat with (S (k - S idx)) by lia. reflexivity.
    + intros b Hb. rewrite Hb2.
      * cbn [add_idx m_bits]. unfold m3. destruct (nth_error bs idx) as [b0|] eqn:Eb; [|reflexivity].
        cbn [set_bit m_bits]. destruct (Nat.eqb_spec b b0) as [->|]; [|reflexivity].
        exfalso. apply (Hb idx); [cbn; lia|exact Eb].
      * intros k Hk. apply Hb. cbn [length]. lia.
    + rewrite Hp, Hpa. cbn [length]. lia.
    + rewrite Hwn. cbn [add_idx m_warn]. unfold m3. destruct (nth_error bs idx) as [b0|] eqn:Eb.
      * assert (idx < length bs)%nat by (apply nth_error_Some; congruence). cbn [set_bit next_rnd warn m_warn length]. lia.
      * apply nth_error_None in Eb. cbn [set_bit next_rnd warn m_warn length]. lia.
Qed.

(** A measurement in a circuit. *)
Theorem measurement_in_circuit c o mid bs ops (m : mem) v : wf_op c o -> (num_qubits Ccring c <= 30)%N ->
  so_kind Ccring o = KMeasure Ccring mid (Some bs) -> NoDup bs ->
  ~ some_zero (m_bits Ccring m) (so_cond Ccring o) -> normalised (num_qubits Ccring c) v ->
  exists ts m' w os, placed c o ts /\
    run_pure_C rnd c false (o :: ops) m v = run_pure_C rnd c false ops m' w /\
    collapses (num_qubits Ccring c) ts (map rnd (seq (m_pos Ccring m) (length ts))) os v w /\
    normalised (num_qubits Ccring c) w /\
    (forall k b, (k < length ts)%nat -> nth_error bs k = Some b -> m_bits Ccring m' b = nth_error os k) /\
    (forall b, (forall k, (k < length ts)%nat -> nth_error bs k <> Some b) -> m_bits Ccring m' b = m_bits Ccring m b) /\
    m_state Ccring m' mid = Some v /\
    m_idx Ccring m' mid = m_idx Ccring m mid ++ ts /\
    m_pos Ccring m' = (m_pos Ccring m + length ts)%nat /\
    m_warn Ccring m' = (m_warn Ccring m + (length ts - length bs))%nat.
Proof.
  intros Hw Hn Ek Hnd Hz Hv. destruct (placed_wf Ccring c o Hw) as (ts & E & Hp & Hl & _).
  destruct (measure_loop_spec (num_qubits Ccring c) mid bs ts Hn Hl Hnd 0%nat (set_mstate Ccring mid v m) v Hv)
    as (m' & w & os & E' & Hc & Hnw & Hlen & Hb1 & Hb2 & Hpos & Hwn).
  exists ts, m', w, os. split; [exact Hp|].
  assert (Eb : is_blocked Ccring m o = false).
  { destruct (is_blocked Ccring m o) eqn:Eb; [|reflexivity]. exfalso. apply Hz. unfold is_blocked in Eb.
    apply negb_true_iff in Eb. assert (Hx : exists b, In b (so_cond Ccring o) /\ bit_true Ccring m b = false).
    { clear -Eb. induction (so_cond Ccring o) as [|b l IH]; [discriminate|]. cbn in Eb.
      destruct (bit_true Ccring m b) eqn:Et; [|exists b; split; [now left|exact Et]].
      destruct (IH Eb) as (b' & Hb & Ht). exists b'. split; [now right|exact Ht]. }
    destruct Hx as (b & Hb & Ht). exists b. split; [exact Hb|]. unfold bit_true in Ht.
    destruct (m_bits Ccring m b) as [[|]|]; congruence. }
  split.
  - unfold run_pure_C. cbn [run_pure]. rewrite E. unfold apply_instruction. rewrite Eb, Ek. unfold measure.
    rewrite E'. reflexivity.
  - destruct (measure_attrs Ccring R Cgtb Cis0 Cinvsqrt rnd _ _ _ _ _ _ _ _ _ E') as [Hi Hs].
    split; [exact Hc|]. split; [exact Hnw|].
    split; [intros k b Hk Hbk; rewrite (Hb1 k b) by (auto; lia); f_equal; lia|].
    split; [intros b Hb; rewrite Hb2; [reflexivity|]; intros k Hk; apply Hb; lia|].
    split; [rewrite Hs; cbn [set_mstate m_state]; now rewrite Nat.eqb_refl|].
    split; [exact Hi|]. split; [exact Hpos|]. rewrite Hwn. cbn [set_mstate m_warn]. lia.
Qed.
End Run.

(** ** Samples *)
Definition bit_nat (b : bool) : nat := if b then 1%nat else 0%nat.

Lemma sample_once_spec n qs (us : nat -> R) : (n <= 30)%N -> (forall q, In q qs -> (q < n)%N) ->
  (forall k, uniform (us k)) -> forall k v, normalised n v ->
  exists os w, sample_once Ccring R Cgtb Cis0 Cinvsqrt n qs us k v = Ok (map bit_nat os, (k + length qs)%nat) /\
    collapses n qs (map us (seq k (length qs))) os v w.
Proof.
  intros Hn Hq Hu. induction qs as [|q qs IH]; intros k v Hv.
  - exists [], v. cbn. rewrite Nat.add_0_r. split; [reflexivity|]. now constructor.
  - destruct (measurement_correct false n q (us k) v Hn (Hq q (or_introl eq_refl)) Hv (Hu k))
      as (o & v' & E & Ho & Hp & Hv' & Hval).
    destruct (IH (fun x Hx => Hq x (or_intror Hx)) (S k) v' Hv') as (os & w & Eo & Hc).
    exists (o :: os), w. cbn [sample_once]. fold sample_qubit_C. rewrite E. cbn [bind].
    rewrite Eo. cbn [bind length map seq]. replace (k + S (length qs))%nat with (S k + length qs)%nat by lia.
    split; [destruct o; reflexivity|]. econstructor; eauto.
Qed.

Lemma sample_many_spec n qs (us : nat -> R) : (n <= 30)%N -> (forall q, In q qs -> (q < n)%N) ->
  (forall k, uniform (us k)) -> forall num k v, normalised n v ->
  exists oss, sample_many Ccring R Cgtb Cis0 Cinvsqrt n qs us k num v = Ok (map (map bit_nat) oss) /\ length oss = num /\
    forall j os, nth_error oss j = Some os ->
      exists w, collapses n qs (map us (seq (k + j * length qs) (length qs))) os v w.
Proof.
  intros Hn Hq Hu. induction num as [|num IH]; intros k v Hv.
  - exists []. cbn. repeat split. intros [|j] os Hj; discriminate.
  - destruct (sample_once_spec n qs us Hn Hq Hu k v Hv) as (os & w & E & Hc).
    destruct (IH (k + length qs)%nat v Hv) as (oss & Es & Hl & Hall).
    exists (os :: oss). cbn [sample_many]. rewrite E. cbn [bind]. rewrite Es. cbn [bind length map].
    split; [reflexivity|]. split; [now rewrite Hl|]. intros [|j] x Hx.
    + injection Hx as <-. exists w. now rewrite Nat.mul_0_l, Nat.add_0_r.
    + destruct (Hall j x Hx) as (w' & Hw'). exists w'.
      replace (k + S j * length qs)%nat with (k + length qs + j * length qs)%nat by lia. exact Hw'.
Qed.

(** Sampling chosen qubits of a measured state. *)
Theorem sample_spec n mid (m : mem) qs us num v : (n <= 30)%N -> (forall k, uniform (us k)) ->
  m_state Ccring m mid = Some v -> normalised n v ->
  let ts := match qs with Some l => l | None => m_idx Ccring m mid end in
  (ts = [] \/ (exists q, In q ts /\ (n <= q)%N) -> sample_C n mid m qs us num = Err ValueError) /\
  (ts <> [] -> (forall q, In q ts -> (q < n)%N) ->
   exists oss, sample_C n mid m qs us num = Ok (map (map bit_nat) oss) /\ length oss = num /\
     forall j os, nth_error oss j = Some os ->
       exists w, collapses n ts (map us (seq (j * length ts) (length ts))) os v w).
Proof.
  intros Hn Hu Hm Hv ts. unfold sample_C, sample. rewrite Hm. fold ts. split.
  - intros H. destruct ts as [|t ts']; [reflexivity|]. destruct H as [H|(q & Hq & Hge)]; [discriminate|].
    destruct (forallb (fun q => (q <? n)%N) (t :: ts')) eqn:Ef; [|reflexivity].
    rewrite forallb_forall in Ef. specialize (Ef q Hq). apply N.ltb_lt in Ef. lia.
  - intros Hne Hl. destruct (sample_many_spec n ts us Hn Hl Hu num 0%nat v Hv) as (oss & E & H1 & H2).
    exists oss. split; [|split; [exact H1|exact H2]].
    assert (Ef : forallb (fun q => (q <? n)%N) ts = true)
      by (apply forallb_forall; intros q Hq; apply N.ltb_lt; auto).
    destruct ts as [|t ts']; [congruence|]. now rewrite Ef.
Qed.

Theorem sample_unmeasured n mid (m : mem) qs us num : m_state Ccring m mid = None ->
  sample_C n mid m qs us num = Err CircuitError.
Proof. intros H. unfold sample_C, sample. now rewrite H. Qed.

(** ** Sampling after [k] simulations *)
Theorem sample_after_runs_spec c mid o rnds (m : mem) : wf_circ c -> unitary_circ c -> (num_qubits Ccring c <= 30)%N ->
  measured_once (sc_ops Ccring c) mid o -> (forall rnd, In rnd rnds -> forall k, uniform (rnd k)) ->
  rnds <> [] -> m_idx Ccring m mid = [] -> so_qubits Ccring o <> Some [] ->
  exists ts v, placed c o ts /\ normalised (num_qubits Ccring c) v /\
    m_state Ccring (simulate_again rnds c m) mid = Some v /\
    forall (us : nat -> R) num, (forall k, uniform (us k)) ->
    exists oss, sample_C (num_qubits Ccring c) mid (simulate_again rnds c m) None us num = Ok (map (map bit_nat) oss) /\
      length oss = num /\
      forall j os, nth_error oss j = Some os -> exists w,
        let tt := concat (repeat ts (length rnds)) in
        collapses (num_qubits Ccring c) tt (map us (seq (j * length tt) (length tt))) os v w.
Proof.
  intros Hwf Hu Hn Ho Hr Hnr Hm Hq.
  destruct (simulate_again_attrs c mid o rnds Hwf Hu Hn Ho Hr Hnr m) as (ts & v0 & H1 & H2 & H3 & H4 & H5).
  exists ts, v0. split; [exact H1|]. split; [exact H5|]. split; [exact H4|]. intros us num Hus.
  rewrite Hm in H3. cbn [app] in H3.
  destruct (sample_spec (num_qubits Ccring c) mid (simulate_again rnds c m) None us num v0 Hn Hus H4 H5) as [_ H].
  cbv zeta in H. rewrite H3 in H. apply H.
  - destruct rnds as [|r rnds']; [congruence|]. cbn [length repeat concat]. destruct ts as [|t ts']; [|discriminate].
    exfalso. apply Hq. destruct H1 as (qs & E & F). inversion F; subst. exact E.
  - intros q Hin. apply in_concat in Hin. destruct Hin as (l & Hl & Hql). apply repeat_spec in Hl. subst l. auto.
Qed.

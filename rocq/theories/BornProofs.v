(** Measurements in programs that simulate: outcomes follow the Born rule. *)
From Coq Require Import List NArith ZArith Arith String Bool Lia Reals.
From Verif Require Import Py CRing Cplx KernelSpec SimModel SimSpec SimProofs SimProofs2 SimProofs3 SimProofs4 SimReal SimProofs5 MeasureSpec SimProofs7
  SampleModel SampleSpec SampleProofs SampleProofs2 GateModel StateModel StateSpec StateProofs
  RegisterModel WorldModel WorldSpec WorldSpec4 WorldInv WorldInv7 WorldCheck LinkModel LinkSpec LinkProofs SessionModel SessionSpec SessionProofs SessionProofs2 SessionProofs3 SessionProofs4
  BornSpec.
Import ListNotations.
Local Open Scope nat_scope.
Local Open Scope string_scope.

(** Gates lead to one state. *)
Lemma runs_same (K : cring) le (c : scirc K) bits ops : NoDup (sc_qubits K c) ->
  (forall o, In o ops -> wf_op c o /\ is_measure (so_kind K o) = false) ->
  forall v v' w w', (forall i, (i < 2 ^ SimModel.num_qubits K c)%N -> v' i = v i) -> runs le c bits ops v w -> runs le c bits ops v' w' ->
  forall i, (i < 2 ^ SimModel.num_qubits K c)%N -> w' i = w i.
Proof.
  intros Hn. induction ops as [|o ops IH]; intros Hops v v' w w' Hv H1 H2 i Hi.
  - inversion H1 as [? ? A1| |]; subst. inversion H2 as [? ? A2| |]; subst. now rewrite A1, A2, Hv.
  - destruct (Hops o (or_introl eq_refl)) as (Hw & Hm).
    assert (Hops' : forall y, In y ops -> wf_op c y /\ is_measure (so_kind K y) = false) by (intros; apply Hops; now right).
    inversion H1 as [|? ? ? ? Z1 R1|? ? ts ? a1 ? Z1 P1 A1 R1]; subst;
      inversion H2 as [|? ? ? ? Z2 R2|? ? ts2 ? a2 ? Z2 P2 A2 R2]; subst; try contradiction.
    + exact (IH Hops' v v' w w' Hv R1 R2 i Hi).
    + assert (ts2 = ts) by (eapply placed_unique; eauto). subst ts2.
      destruct (placed_good K c o ts Hw Hn P1 Hm) as [Hg Hk].
      refine (IH Hops' a1 a2 w w' _ R1 R2 i Hi). intros j Hj. rewrite A1, A2 by exact Hj. now apply gate_action_ext.
Qed.


Lemma map_one {A B} (f : A -> B) : (forall a b, f a = f b -> a = b) -> forall l l', map f l = map f l' -> l = l'.
Proof. intros H. induction l as [|a l IH]; intros [|b l'] E; try discriminate; [reflexivity|]. injection E as E1 E2. f_equal; auto. Qed.

Section Main.
Variable ptrue : R -> bool.
Variable peqb : R -> R -> bool.
Variable extra : list cls.
Variable p : sprog.
Variable s : session.
Variable c : nat.
Variable x : circ.
Hypothesis He : sexecutes ptrue peqb (own_ok R) p (begin (library_classes ++ extra)%list).
Hypothesis Hv : svisits ptrue peqb p (begin (library_classes ++ extra)%list) s.
Hypothesis Hsm : small R (s_w s).
Hypothesis Hc : nth_error (w_circ (s_w s)) c = Some x.
Hypothesis Hrd : forall o y, In o (c_ops x) -> nth_error (w_op (s_w s)) o = Some y -> ready (s_w s) x o y.
Let n := List.length (circuit_qubits x).
Hypothesis Hn1 : 1 <= n.
Hypothesis Hn30 : n <= 30.

(** A simulation is a run of what the simulator sees. *)
Lemma session_run : exists sc, seen (s_w s) c = Some sc /\ SimModel.num_qubits Ccring sc = N.of_nat n /\
  circuit_qubits x = map IQubit (sc_qubits Ccring sc) /\
  Forall2 (shown (s_w s)) (c_ops x) (sc_ops Ccring sc) /\ wf_circ sc /\ unitary_circ sc /\
  forall rnd, (forall k, uniform (rnd k)) -> exists m a,
    run_pure_C rnd sc false (sc_ops Ccring sc) (found s) (zero_state Ccring) = (m, Ok a) /\
    sim c false false rnd s =
      (mkSession (put_bits (m_bits Ccring m) (fst (qubits c (s_w s)))) (set_at c (mkCst (Some (mkArr [2 ^ N.of_nat n]%N a)) None) (s_st s))
                 (m_state Ccring m) (m_idx Ccring m), Ok tt).
Proof.
  destruct (session_world ptrue peqb extra p s He Hv) as (q & Q1 & Q2).
  destruct (link_seen ptrue peqb extra q (s_w s) Q1 Q2 Hsm c x Hc Hrd) as (sc & Es & E2 & Ef & Ew & Eu).
  { intros H. unfold n in Hn1. rewrite H in Hn1. cbn in Hn1. lia. }
  assert (En : SimModel.num_qubits Ccring sc = N.of_nat n) by (unfold SimModel.num_qubits, n; now rewrite E2, map_length).
  exists sc. split; [exact Es|]. split; [exact En|]. split; [exact E2|]. split; [exact Ef|]. split; [exact Ew|]. split; [exact Eu|]. intros rnd Hu.
  assert (L30 : (SimModel.num_qubits Ccring sc <= 30)%N) by (rewrite En; lia).
  destruct (simulate_sets_state rnd sc false (found s) (s_st s c) Hu Ew Eu L30 ltac:(discriminate)) as (m & a & E3 & E4 & E5).
  rewrite En in E3. exists m, a. split.
  - assert (Hq : exists q0 qs, sc_qubits Ccring sc = q0 :: qs) by (destruct Ew as (_ & H & _); destruct (sc_qubits Ccring sc); [congruence|eauto]).
    destruct Hq as (q0 & qs0 & Hq). unfold simulate_C, simulate in E4. rewrite Hq in E4. unfold run_pure_C.
    destruct (run_pure Ccring R Cgtb Cis0 Cinvsqrt rnd sc false (sc_ops Ccring sc) (found s) (zero_state Ccring)) as [m' [v|e]]; [|discriminate].
    cbn in E4. now injection E4 as <- <-.
  - unfold sim. rewrite Es, E3. reflexivity.
Qed.

Variables (before after : list nat) (o : nat) (qs bs : list nat).
Hypothesis Hops : c_ops x = (before ++ o :: after)%list.
Hypothesis Hfree : forall o', In o' before -> ~ measures (s_w s) o'.
Hypothesis Hm : measuring (s_w s) o qs bs.
Hypothesis Ha : always (s_w s) o.
Hypothesis Hlen : List.length bs = List.length qs.
Hypothesis Hnd : NoDup bs.

(** The measured state and what is measured; the state after the measurement. *)
Lemma born_run : exists sc v ts before' so after', seen (s_w s) c = Some sc /\ Forall2 (shown (s_w s)) before before' /\
  Forall2 (shown (s_w s)) after after' /\ wf_circ sc /\ NoDup (sc_qubits Ccring sc) /\ SimModel.num_qubits Ccring sc = N.of_nat n /\
  at_places x qs ts /\ prepares (s_w s) c before v /\ normalised (N.of_nat n) v /\ List.length ts = List.length qs /\
  (forall t, In t ts -> (t < N.of_nat n)%N) /\ (so_kind Ccring so = KMeasure Ccring o (Some bs)) /\
  forall rnd, (forall k, uniform (rnd k)) -> exists m1 m a v1 w os,
    sim c false false rnd s =
      (mkSession (put_bits (m_bits Ccring m) (fst (qubits c (s_w s)))) (set_at c (mkCst (Some (mkArr [2 ^ N.of_nat n]%N a)) None) (s_st s))
                 (m_state Ccring m) (m_idx Ccring m), Ok tt) /\
    run_pure_C rnd sc false after' m1 w = (m, Ok a) /\
    (forall i, (i < 2 ^ N.of_nat n)%N -> v1 i = v i) /\ normalised (N.of_nat n) v1 /\
    collapses (N.of_nat n) ts (map rnd (seq 0 (List.length ts))) os v1 w /\ List.length os = List.length ts /\
    (forall k b, k < List.length ts -> nth_error bs k = Some b -> m_bits Ccring m1 b = nth_error os k) /\
    m_state Ccring m1 o = Some v1 /\ m_idx Ccring m1 o = (s_idx s o ++ ts)%list.
Proof.
  destruct session_run as (sc & Es & En & Eq & Ef & Ew & Eu & Hrun).
  rewrite Hops in Ef. apply Forall2_app_inv_l in Ef. destruct Ef as (before' & l2 & F1 & F2 & Esc).
  inversion F2 as [|? so ? after' Fo F3]; subst l2. subst.
  pose proof Ew as (End & Ene & Ewf). 
  assert (Hso : wf_op sc so) by (apply Ewf; rewrite Esc; apply in_or_app; right; now left).
  destruct (shown_op _ _ _ Fo) as (y & k & qs' & G1 & G2 & G3 & G4 & G5 & G6).
  destruct Hm as (y' & k' & M1 & M2 & M3 & M4 & M5). rewrite G1 in M1. injection M1 as <-. rewrite G2 in M2. injection M2 as <-.
  rewrite G3 in M4. injection M4 as M4. assert (qs' = qs) by (revert M4; apply map_one; now intros ? ? [= ->]). subst qs'. clear M4.
  destruct G6 as [(bs' & Gk & _ & Gb)|[_ Gb]]; [|congruence]. rewrite M5 in Gb. destruct bs' as [bs'|]; [|discriminate].
  cbn in Gb. injection Gb as Gb. assert (bs' = bs) by (symmetry; revert Gb; apply map_one; now intros ? ? [= ->]). subst bs'. clear Gb.
  pose proof (proj1 (shown_always _ _ _ Fo) Ha) as Gc.
  assert (Wb : forall o', In o' before' -> wf_op sc o' /\ is_measure (so_kind Ccring o') = false).
  { intros o' Ho. split; [apply Ewf; rewrite Esc; apply in_or_app; now left|].
    destruct (F2_right _ _ _ F1 o' Ho) as (o1 & Ho1 & Hsh). destruct (is_measure (so_kind Ccring o')) eqn:Em; [|reflexivity].
    exfalso. apply (Hfree o1 Ho1). now apply (shown_measures _ _ _ Hsh). }
  assert (L30 : (SimModel.num_qubits Ccring sc <= 30)%N) by (rewrite En; lia).
  set (zero := fun _ : nat => 0%R).
  destruct (run_pure_runs Ccring R Cgtb Cis0 Cinvsqrt zero sc false before' (found s) L30 Wb (zero_state Ccring)) as (v & Ev & Rv).
  destruct (placed_wf Ccring sc so Hso) as (ts & Et & Hp & Hl & _).
  assert (Nv : forall rnd w, (forall k, uniform (rnd k)) -> run_pure Ccring R Cgtb Cis0 Cinvsqrt rnd sc false before' (found s) (zero_state Ccring) = (found s, Ok w) ->
    normalised (N.of_nat n) w).
  { intros rnd w Hu Er. destruct (run_pure_norm rnd Hu sc false before' L30 End) with (m := found s) (v := zero_state Ccring) as (m1 & v1 & E1 & Hv1).
    - intros o' Ho. destruct (Wb o' Ho) as [A B]. repeat split; auto; try discriminate. apply Eu. rewrite Esc. apply in_or_app. now left.
    - apply zero_normalised.
    - unfold run_pure_C in E1. rewrite Er in E1. injection E1 as <- <-. now rewrite En in Hv1. }
  exists sc, v, ts, before', so, after'. split; [exact Es|]. split; [exact F1|]. split; [exact F3|]. split; [exact Ew|]. split; [exact End|]. split; [exact En|].
  split; [|split; [|split; [|split; [|split; [|split; [exact Gk|]]]]]].
  - destruct Hp as (qs0 & Q1 & Q2). rewrite G4 in Q1. injection Q1 as <-. unfold at_places. clear -Q2 Eq. induction Q2 as [|q t l l' H _ IH]; constructor; [|exact IH].
    rewrite Eq, nth_error_map, H. reflexivity.
  - exists sc, before'. split; [exact Es|]. split; [exact F1|]. exact Rv.
  - apply (Nv zero); [intros k0; unfold uniform, zero; split; [apply Rle_refl|apply Rlt_0_1]|exact Ev].
  - destruct Hp as (qs0 & Q1 & Q2). rewrite G4 in Q1. injection Q1 as <-. clear -Q2. induction Q2; cbn; congruence.
  - intros t Ht. rewrite <- En. now apply Hl.
  - intros rnd Hu. destruct (Hrun rnd Hu) as (m & a & Er & Esim).
    destruct (run_pure_runs Ccring R Cgtb Cis0 Cinvsqrt rnd sc false before' (found s) L30 Wb (zero_state Ccring)) as (v1 & Ev1 & Rv1).
    assert (Nv1 : normalised (N.of_nat n) v1) by (apply (Nv rnd); auto).
    destruct (measurement_in_circuit rnd Hu sc so o bs after' (found s) v1 Hso L30 Gk Hnd) as (ts' & m1 & w & os & P' & R' & C' & _ & B1 & _ & S1 & I1 & _).
    { rewrite Gc. intros (b & [] & _). }
    { rewrite En. exact Nv1. }
    assert (ts' = ts) by (eapply placed_unique; eauto). subst ts'. rewrite En in C'.
    exists m1, m, a, v1, w, os. split; [exact Esim|]. split.
    + rewrite <- R'. unfold run_pure_C in *. rewrite Esc, run_pure_app, Ev1 in Er. exact Er.
    + split; [|split; [exact Nv1|split; [exact C'|split; [now apply collapses_length in C'|split; [exact B1|split; [exact S1|exact I1]]]]]].
      intros i Hi. rewrite <- En in Hi. exact (runs_same Ccring false sc _ before' End Wb _ _ _ _ (fun _ _ => eq_refl) Rv Rv1 i Hi).
Qed.

Hypothesis Hkeep : forall o' b, In o' after -> In b bs -> ~ stores (s_w s) o' b.
Hypothesis Hbits : forall b, In b bs -> b < List.length (w_bit (s_w s)).

Lemma session_born : exists v ts, at_places x qs ts /\ prepares (s_w s) c before v /\ normalised (N.of_nat n) v /\
  forall os, List.length os = List.length qs ->
  exists bx : box, List.length bx = List.length qs /\ in_unit bx /\ volume bx = joint (N.of_nat n) ts os v /\
    forall rnd, (forall k, uniform (rnd k)) ->
    exists s', sim c false false rnd s = (s', Ok tt) /\
      (map (bit_value R (s_w s')) bs = map Some os <-> inside (map rnd (seq 0 (List.length qs))) bx).
Proof.
  destruct born_run as (sc & v & ts & before' & so & after' & Es & F1 & F3 & Ew & End & En & Hp & Hpr & Hnv & Hlt & Hl & Gk & Hrun).
  exists v, ts. split; [exact Hp|]. split; [exact Hpr|]. split; [exact Hnv|]. intros os Hos.
  destruct (collapses_box (N.of_nat n) ts os v Hnv) as (bx & B1 & B2 & B3 & B4); [congruence|].
  exists bx. split; [congruence|]. split; [exact B2|]. split; [exact B3|]. intros rnd Hu.
  destruct (Hrun rnd Hu) as (m1 & m & a & v1 & w & os1 & Esim & Er & Hv1 & Hn & Hcol & Ho1 & Hb & _).
  eexists. split; [exact Esim|]. cbn [s_w].
  assert (Hval : map (bit_value R (put_bits (m_bits Ccring m) (fst (qubits c (s_w s))))) bs = map Some os1).
  { assert (Hk : forall b, In b bs -> m_bits Ccring m b = m_bits Ccring m1 b).
    { intros b Hin. destruct (run_writes_one Ccring R Cgtb Cis0 Cinvsqrt rnd sc false after' m1 w) as (m0 & r0 & u & Er0 & Hw & W1 & _).
      unfold run_pure_C in Er. rewrite Er in Er0. injection Er0 as <- <-. rewrite Hw. unfold over. destruct (u b) eqn:Eu; [|reflexivity].
      exfalso. destruct (W1 b) as (o' & Ho' & Hst); [congruence|]. destruct (F2_right _ _ _ F3 o' Ho') as (o1 & Hin1 & Hsh).
      apply (Hkeep o1 b Hin1 Hin). now apply (shown_stores _ _ _ b Hsh). }
    transitivity (map (m_bits Ccring m1) bs).
    { apply map_ext_in. intros b Hin. rewrite put_value; [now apply Hk|]. rewrite qubits_bits. now apply Hbits. }
    assert (HL : List.length bs = List.length os1) by congruence.
    rewrite <- Ho1 in Hb. clear -Hb HL. revert os1 HL Hb. induction bs as [|b l IH]; intros [|o1 os1] HL Hb; try discriminate HL; [reflexivity|].
    cbn [map]. f_equal.
    - apply (Hb 0 b); [cbn; lia|reflexivity].
    - apply IH; [cbn in HL; lia|]. intros k b' Hk Hk'. apply (Hb (S k) b'); [cbn; lia|exact Hk']. }
  rewrite Hval.
  assert (Hcv : collapses (N.of_nat n) ts (map rnd (seq 0 (List.length ts))) os1 v w) by (eapply collapses_ext; [exact Hcol|exact Hv1]).
  rewrite <- (B4 (map rnd (seq 0 (List.length qs)))).
  - rewrite <- Hlt. split.
    + intros E. apply map_one in E; [|now intros ? ? [= ->]]. subst os1. eauto.
    + intros (w' & Hw'). destruct (collapses_fun _ _ _ _ _ _ Hcv _ _ _ Hw') as [-> _]; auto.
  - apply Forall_forall. intros r Hr. apply in_map_iff in Hr. destruct Hr as (k & <- & _). apply Hu.
  - rewrite map_length, seq_length. congruence.
Qed.

(** Nothing after the measurement: the state is what remains of the measured one. *)
Lemma session_collapse : after = [] -> exists v ts, at_places x qs ts /\ prepares (s_w s) c before v /\ normalised (N.of_nat n) v /\
  forall rnd, (forall k, uniform (rnd k)) ->
  exists s' a os, sim c false false rnd s = (s', Ok tt) /\ s_st s' c = mkCst (Some (mkArr [2 ^ N.of_nat n]%N a)) None /\
    map (bit_value R (s_w s')) bs = map Some os /\ (0 < joint (N.of_nat n) ts os v)%R /\
    forall i, (i < 2 ^ N.of_nat n)%N ->
      a i = if shows (N.of_nat n) i ts os then Cmul (RtoC (1 / sqrt (joint (N.of_nat n) ts os v))) (v i) else C0.
Proof.
  intros Haf.
  destruct born_run as (sc & v & ts & before' & so & after' & Es & F1 & F3 & Ew & End & En & Hp & Hpr & Hnv & Hlt & Hl & Gk & Hrun).
  exists v, ts. split; [exact Hp|]. split; [exact Hpr|]. split; [exact Hnv|]. intros rnd Hu.
  destruct (Hrun rnd Hu) as (m1 & m & a & v1 & w & os1 & Esim & Er & Hv1 & Hn & Hcol & Ho1 & Hb & _).
  rewrite Haf in F3. inversion F3; subst after'. unfold run_pure_C in Er. cbn in Er. injection Er as <- <-.
  eexists _, w, os1. split; [exact Esim|]. cbn [s_w s_st]. split; [unfold set_at; now rewrite Nat.eqb_refl|].
  assert (Hcv : collapses (N.of_nat n) ts (map rnd (seq 0 (List.length ts))) os1 v w) by (eapply collapses_ext; [exact Hcol|exact Hv1]).
  destruct (collapses_joint _ _ _ _ _ _ Hcv Hnv) as [J1 J2]. split; [|split; [exact J1|exact J2]].
  transitivity (map (m_bits Ccring m1) bs).
  { apply map_ext_in. intros b Hin. rewrite put_value; [reflexivity|]. rewrite qubits_bits. now apply Hbits. }
  assert (HL : List.length bs = List.length os1) by congruence.
  rewrite <- Ho1 in Hb. clear -Hb HL. revert os1 HL Hb. induction bs as [|b l IH]; intros [|o1 os1] HL Hb; try discriminate HL; [reflexivity|].
  cbn [map]. f_equal.
  - apply (Hb 0 b); [cbn; lia|reflexivity].
  - apply IH; [cbn in HL; lia|]. intros k b' Hk Hk'. apply (Hb (S k) b'); [cbn; lia|exact Hk'].
Qed.
End Main.

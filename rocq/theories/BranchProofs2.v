(** The simulator takes one branch of the circuit; which one is decided by boxes of random numbers. *)
From Coq Require Import List NArith Arith Bool Lia Reals Lra.
From Verif Require Import Py CRing Cplx KernelModel KernelSpec KernelProofs2 SimModel SimSpec SimReal SimProofs SimProofs2 SimProofs3 SimProofs4 MeasureSpec SimProofs7
  SampleModel SampleSpec SampleProofs SampleProofs2 BranchSpec BranchProofs.
Import ListNotations.
Local Open Scope R_scope.

Definition put_all (l : list (nat * bool)) (bits : nat -> option bool) : nat -> option bool :=
  fold_left (fun f (bo : nat * bool) => fun b => if Nat.eqb b (fst bo) then Some (snd bo) else f b) l bits.
Lemma put_all_ext l : forall f g, (forall b, f b = g b) -> forall b, put_all l f b = put_all l g b.
Proof. induction l as [|x l IH]; intros f g H b; [apply H|]. cbn. apply IH. intros b'. now rewrite H. Qed.
Lemma recorded_ext st os f g : (forall b, f b = g b) -> forall b, recorded st os f b = recorded st os g b.
Proof. destruct st as [bs|]; [apply put_all_ext|auto]. Qed.
Lemma skipn_cons {A} (l : list A) : forall k a, nth_error l k = Some a -> skipn k l = a :: skipn (S k) l.
Proof. induction l as [|b l IH]; intros [|k] a H; try discriminate; [now injection H as ->|]. cbn [skipn]. now apply IH. Qed.

(** ** The loop of a measurement *)
Section Loop.
Variable rnd : nat -> R.
Hypothesis Hrnd : forall k, uniform (rnd k).

Lemma loop_recorded n mid st ts : (n <= 30)%N -> (forall t, In t ts -> (t < n)%N) ->
  forall idx (m : mem Ccring) v, normalised n v ->
  exists m' w os, measure_loop Ccring R Cgtb Cis0 Cinvsqrt rnd n mid st idx ts m v = (m', Ok w) /\
    collapses n ts (map rnd (seq (m_pos Ccring m) (length ts))) os v w /\ normalised n w /\ length os = length ts /\
    (forall b, m_bits Ccring m' b = recorded (option_map (skipn idx) st) os (m_bits Ccring m) b) /\
    m_pos Ccring m' = (m_pos Ccring m + length ts)%nat.
Proof.
  intros Hn. induction ts as [|t ts IH]; intros Hl idx m v Hv.
  - exists m, v, []. cbn [measure_loop length seq map]. split; [reflexivity|]. split; [now constructor|].
    split; [exact Hv|]. split; [reflexivity|]. split; [|lia]. intros b. destruct st as [bs|]; [|reflexivity]. cbn. now destruct (skipn idx bs).
  - cbn [measure_loop].
    destruct (measurement_correct false n t (rnd (m_pos Ccring m)) v Hn (Hl t (or_introl eq_refl)) Hv (Hrnd _))
      as (o & v' & E & Ho & Hpos & Hv' & Hval). fold sample_qubit_C. rewrite E.
    set (m3 := match st with Some bs => match nth_error bs idx with
               | Some b => set_bit Ccring b (Nat.eqb (if o then 1%nat else 0%nat) 1) (next_rnd Ccring m)
               | None => warn Ccring (next_rnd Ccring m) end | None => warn Ccring (next_rnd Ccring m) end).
    destruct (IH (fun x Hx => Hl x (or_intror Hx)) (S idx) (add_idx Ccring mid t m3) v' Hv')
      as (m' & w & os & E' & Hc & Hw & Hlen & Hb & Hp).
    exists m', w, (o :: os). split; [exact E'|].
    assert (Hpa : m_pos Ccring (add_idx Ccring mid t m3) = S (m_pos Ccring m)) by (unfold m3; destruct st as [bs|]; [destruct (nth_error bs idx)|]; reflexivity).
    split; [|split; [exact Hw|split; [cbn; lia|split]]].
    + cbn [length seq map]. rewrite Hpa in Hc. econstructor; eauto.
    + intros b. rewrite Hb. destruct st as [bs|]; [|reflexivity]. cbn [option_map recorded]. destruct (nth_error bs idx) as [b0|] eqn:Eb.
      * rewrite (skipn_cons bs idx b0 Eb). cbn [combine]. apply (put_all_ext (combine (skipn (S idx) bs) os)).
        intros b'. cbn [add_idx m_bits fst snd]. unfold m3. cbn [set_bit next_rnd m_bits]. destruct (Nat.eqb b' b0); [destruct o; reflexivity|reflexivity].
      * apply nth_error_None in Eb. rewrite !skipn_all2 by lia. reflexivity.
    + rewrite Hp, Hpa. cbn [length]. lia.
Qed.

Lemma measure_step c o mid st ops (m : mem Ccring) v ts : wf_op c o -> NoDup (sc_qubits Ccring c) -> (num_qubits Ccring c <= 30)%N ->
  so_kind Ccring o = KMeasure Ccring mid st -> placed c o ts -> ~ some_zero (m_bits Ccring m) (so_cond Ccring o) -> normalised (num_qubits Ccring c) v ->
  exists m' w os, run_pure_C rnd c false (o :: ops) m v = run_pure_C rnd c false ops m' w /\
    collapses (num_qubits Ccring c) ts (map rnd (seq (m_pos Ccring m) (length ts))) os v w /\ normalised (num_qubits Ccring c) w /\ length os = length ts /\
    (forall b, m_bits Ccring m' b = recorded st os (m_bits Ccring m) b) /\ m_pos Ccring m' = (m_pos Ccring m + length ts)%nat.
Proof.
  intros Hw Hnd Hn Ek Hp Hz Hv. destruct (placed_wf Ccring c o Hw) as (ts' & E & Hp' & Hl & _).
  assert (ts' = ts) by (eapply placed_unique; eauto). subst ts'.
  destruct (loop_recorded (num_qubits Ccring c) mid st ts Hn Hl 0%nat (set_mstate Ccring mid v m) v Hv) as (m' & w & os & E' & Hc & Hnw & Hlen & Hb & Hpos).
  exists m', w, os. split; [|split; [exact Hc|split; [exact Hnw|split; [exact Hlen|split; [|exact Hpos]]]]].
  - unfold run_pure_C. cbn [run_pure]. rewrite E. unfold apply_instruction.
    assert (Eb : is_blocked Ccring m o = false).
    { destruct (is_blocked Ccring m o) eqn:Eb; [|reflexivity]. exfalso. apply Hz. now apply is_blocked_spec. }
    rewrite Eb, Ek. unfold measure. rewrite E'. reflexivity.
  - intros b. rewrite Hb. destruct st; reflexivity.
Qed.

Lemma gate_step c o ops (m : mem Ccring) v ts : wf_op c o -> NoDup (sc_qubits Ccring c) -> (num_qubits Ccring c <= 30)%N ->
  is_measure (so_kind Ccring o) = false -> placed c o ts -> ~ some_zero (m_bits Ccring m) (so_cond Ccring o) ->
  exists w, run_pure_C rnd c false (o :: ops) m v = run_pure_C rnd c false ops m w /\
    forall i, (i < 2 ^ num_qubits Ccring c)%N -> w i = gate_action false (num_qubits Ccring c) (so_kind Ccring o) ts v i.
Proof.
  intros Hw Hnd Hn Hm Hp Hz.
  destruct (run_pure_runs Ccring R Cgtb Cis0 Cinvsqrt rnd c false [o] m Hn) with (v := v) as (w & E & H).
  { intros y [<-|[]]. auto. }
  inversion H as [|? ? ? ? Hz2|? ? ts2 ? v2 ? _ Hp2 Hv2 H2]; subst; [contradiction|].
  assert (ts2 = ts) by (eapply placed_unique; eauto). subst ts2. inversion H2 as [? ? Hw2| |]; subst.
  exists w. split; [|intros i Hi; now rewrite Hw2, Hv2].
  unfold run_pure_C. change (o :: ops) with ([o] ++ ops). rewrite run_pure_app, E. reflexivity.
Qed.
End Loop.

(** ** Boxes *)
Lemma volume_unit {A} (l : list A) : volume (map (fun _ => (0, 1)) l) = 1.
Proof. induction l as [|a l IH]; [reflexivity|]. cbn [map]. unfold volume in *. cbn [fold_right fst snd]. rewrite IH. ring. Qed.
Lemma in_unit_unit {A} (l : list A) : in_unit (map (fun _ => (0, 1)) l).
Proof. apply Forall_forall. intros x Hx. apply in_map_iff in Hx. destruct Hx as (? & <- & _). cbn. lra. Qed.

Section Circuit.
Variable c : scirc Ccring.
Hypothesis Hnd : NoDup (sc_qubits Ccring c).
Notation n := (num_qubits Ccring c).
Hypothesis Hn : (n <= 30)%N.

Definition decides (ops : list (sop Ccring)) (bits : nat -> option bool) (v : N -> C) (B : list bool -> box) : Prop :=
  (forall h bits' w, branch c ops h bits v bits' w ->
     length (B h) = length h /\ in_unit (B h) /\ volume (B h) = weight n w /\
     forall rnd (m : mem Ccring) v0, (forall k, uniform (rnd k)) -> (forall b, m_bits Ccring m b = bits b) ->
       (forall i, (i < 2 ^ n)%N -> v0 i = v i) -> inside (map rnd (seq (m_pos Ccring m) (length h))) (B h) ->
       0 < weight n w /\ exists m' a, run_pure_C rnd c false ops m v0 = (m', Ok a) /\ (forall b, m_bits Ccring m' b = bits' b) /\
         m_pos Ccring m' = (m_pos Ccring m + length h)%nat /\ forall i, (i < 2 ^ n)%N -> a i = scaled n w i) /\
  (forall rnd k, (forall k, uniform (rnd k)) -> exists h bits' w, branch c ops h bits v bits' w /\
     inside (map rnd (seq k (length h))) (B h) /\
     forall h' bits'' w', branch c ops h' bits v bits'' w' -> inside (map rnd (seq k (length h'))) (B h') -> h' = h).

Lemma scaled_one w : weight n w = 1 -> forall i, scaled n w i = w i.
Proof. intros E i. unfold scaled. rewrite E, sqrt_1. apply C_eq; unfold Cmul, RtoC, Re, Im; cbn; field. Qed.

(** Scaling by a positive factor does not change what remains when scaled to 1. *)
Lemma scaled_scale a w : 0 < a -> 0 < weight n w -> forall i, scaled n (fun i => Cmul (RtoC a) (w i)) i = scaled n w i.
Proof.
  intros Ha Hw i. unfold scaled. rewrite weight_scale. pose proof (sqrt_lt_R0 _ Hw).
  assert (E : sqrt (a * a * weight n w) = a * sqrt (weight n w)).
  { rewrite sqrt_mult by nra. now rewrite sqrt_square by lra. }
  rewrite E. apply C_eq; unfold Cmul, RtoC, Re, Im; cbn; field; split; lra.
Qed.
Lemma scaled_ext v w : (forall i, (i < 2 ^ n)%N -> v i = w i) -> forall i, (i < 2 ^ n)%N -> scaled n v i = scaled n w i.
Proof. intros H i Hi. unfold scaled. rewrite (weight_ext n v w H). now rewrite H. Qed.

Lemma boxes ops : (forall o, In o ops -> wf_op c o /\ unitary_kind (so_kind Ccring o)) ->
  forall bits v, normalised n v -> exists B, decides ops bits v B.
Proof.
  induction ops as [|o ops IH]; intros Hops bits v Hv.
  - exists (fun _ => []). split.
    + intros h bits' w H. inversion H as [? ? ? ? Hb Hw| | |]; subst. split; [reflexivity|]. split; [constructor|].
      assert (Ew : weight n w = 1) by (rewrite (weight_ext n w v Hw); exact Hv).
      split; [rewrite Ew; reflexivity|]. intros rnd m v0 Hu Hm Hv0 _. split; [rewrite Ew; lra|].
      exists m, v0. split; [reflexivity|]. split; [intros b; now rewrite Hm, Hb|]. split; [cbn; lia|].
      intros i Hi. rewrite (scaled_one w Ew i), Hw, Hv0 by exact Hi. reflexivity.
    + intros rnd k _. exists [], bits, v. split; [now constructor|]. split; [constructor|]. intros h' bits'' w' H _. now inversion H.
  - assert (Hops' : forall y, In y ops -> wf_op c y /\ unitary_kind (so_kind Ccring y)) by (intros; apply Hops; now right).
    assert (Hwf' : forall y, In y ops -> wf_op c y) by (intros; now apply Hops').
    destruct (Hops o (or_introl eq_refl)) as [Hw Hu].
    destruct (placed_wf Ccring c o Hw) as (ts & Eti & Hp & Hlt & _).
    pose proof (is_blocked_spec Ccring (mkMem Ccring bits 0 (fun _ => None) (fun _ => []) 0) o) as Hbl. cbn [m_bits] in Hbl.
    assert (Hdec : some_zero bits (so_cond Ccring o) \/ ~ some_zero bits (so_cond Ccring o)).
    { destruct (is_blocked Ccring _ o); [left; now apply Hbl|right]. intros H. apply Hbl in H. discriminate. }
    assert (Hsz : forall m : mem Ccring, (forall b, m_bits Ccring m b = bits b) -> (some_zero (m_bits Ccring m) (so_cond Ccring o) <-> some_zero bits (so_cond Ccring o))).
    { intros m Hm. split; intros (b & Hb & E); exists b; (split; [exact Hb|]); [now rewrite <- Hm|now rewrite Hm]. }
    destruct Hdec as [Hz|Hz].
    { destruct (IH Hops' bits v Hv) as (B & B1 & B2). exists B.
      assert (Hbr : forall h bits' w, branch c (o :: ops) h bits v bits' w <-> branch c ops h bits v bits' w).
      { intros h bits' w. split; intros H; [inversion H; subst; try contradiction; assumption|now apply branch_blocked]. }
      split.
      - intros h bits' w H. apply Hbr in H. destruct (B1 h bits' w H) as (C1 & C2 & C3 & C4). split; [exact C1|]. split; [exact C2|]. split; [exact C3|].
        intros rnd m v0 Hr Hm Hv0 Hi. destruct (C4 rnd m v0 Hr Hm Hv0 Hi) as (D1 & m' & a & D2 & D3). split; [exact D1|]. exists m', a. split; [|exact D3].
        rewrite <- D2. unfold run_pure_C. cbn [run_pure]. rewrite Eti.
        unfold apply_instruction. replace (is_blocked Ccring m o) with true; [reflexivity|]. symmetry. apply is_blocked_spec. now apply (Hsz m Hm).
      - intros rnd k Hr. destruct (B2 rnd k Hr) as (h & bits' & w & D1 & D2 & D3). exists h, bits', w. split; [now apply Hbr|]. split; [exact D2|].
        intros h' bits'' w' H. apply (D3 h' bits'' w'). now apply Hbr. }
    destruct (is_measure (so_kind Ccring o)) eqn:Em.
    2:{ destruct (placed_good Ccring c o ts Hw Hnd Hp Em) as [Hg Hkk].
        set (v1 := gate_action false n (so_kind Ccring o) ts v).
        assert (Hv1 : normalised n v1) by (apply (gate_normalised false n (so_kind Ccring o) ts v v1 Hkk Hg Hu (fun _ _ => eq_refl) Hv)).
        destruct (IH Hops' bits v1 Hv1) as (B & B1 & B2). exists B.
        assert (Hbr : forall h bits' w, branch c (o :: ops) h bits v bits' w <-> branch c ops h bits v1 bits' w).
        { intros h bits' w; split; intros H.
          - inversion H as [|? ? ? ? ? ? ? Hz2|? ? ? ts2 ? ? x' ? ? _ Hm2 Hp2 Hv2 H'|? ? ? ? ? ? ? ? ? ? ? ? _ Hk2]; subst; try contradiction.
            + assert (ts2 = ts) by (eapply placed_unique; eauto); subst ts2; eapply (branch_ext c Hnd); [exact H'|exact Hwf'|]; intros i Hi; now rewrite Hv2.
            + rewrite Hk2 in Em; discriminate.
          - apply branch_gate with (ts := ts) (v' := v1); auto. }
        split.
        - intros h bits' w H. apply Hbr in H. destruct (B1 h bits' w H) as (C1 & C2 & C3 & C4). split; [exact C1|]. split; [exact C2|]. split; [exact C3|].
          intros rnd m v0 Hr Hm Hv0 Hi.
          destruct (gate_step rnd c o ops m v0 ts Hw Hnd Hn Em Hp) as (x & Ex & Hx); [now rewrite (Hsz m Hm)|].
          rewrite Ex. apply (C4 rnd m x Hr Hm); [|exact Hi]. intros i Hin. rewrite Hx by exact Hin.
          exact (gate_action_ext Ccring false n _ ts v0 v i Hkk Hg Hin Hv0).
        - intros rnd k Hr. destruct (B2 rnd k Hr) as (h & bits' & w & D1 & D2 & D3). exists h, bits', w. split; [now apply Hbr|]. split; [exact D2|].
          intros h' bits'' w' H. apply (D3 h' bits'' w'). now apply Hbr. }
    destruct (so_kind Ccring o) as [mid st| | | | |] eqn:Ek; try discriminate Em.
    set (part := fun (os : list bool) (i : N) => if shows n i ts os then v i else C0).
    assert (Wp : forall os, weight n (part os) = joint n ts os v) by (intros os; now apply weight_shows).
    set (next := fun os => scaled n (part os)).
    assert (Nn : forall os, 0 < joint n ts os v -> normalised n (next os)).
    { intros os Hj. change (weight n (next os) = 1). unfold next, scaled. rewrite weight_scale, Wp. pose proof (sqrt_sqrt _ (Rlt_le _ _ Hj)). pose proof (sqrt_lt_R0 _ Hj).
      rewrite <- H at 3. field. lra. }
    (* the boxes of the measurement and of the rest *)
    assert (X1 : exists M : list bool -> box, forall os, In os (outcomes (length ts)) -> length (M os) = length ts /\ in_unit (M os) /\ volume (M os) = joint n ts os v /\
      forall us, Forall uniform us -> length us = length ts -> ((exists w, collapses n ts us os v w) <-> inside us (M os))).
    { apply (pick bools_eq (fun os b => length b = length ts /\ in_unit b /\ volume b = joint n ts os v /\
        forall us, Forall uniform us -> length us = length ts -> ((exists w, collapses n ts us os v w) <-> inside us b)) ([] : box)). intros os Hos. apply in_outcomes in Hos. exact (collapses_box n ts os v Hv Hos). }
    destruct X1 as (M & HM).
    assert (X2 : exists B : list bool -> list bool -> box, forall os, In os (outcomes (length ts)) -> 0 < joint n ts os v -> decides ops (recorded st os bits) (next os) (B os)).
    { apply (pick bools_eq (fun os B => 0 < joint n ts os v -> decides ops (recorded st os bits) (next os) B) (fun _ => [] : box)). intros os _. destruct (Rlt_le_dec 0 (joint n ts os v)) as [Hj|Hj].
      - destruct (IH Hops' (recorded st os bits) (next os) (Nn os Hj)) as (B & HB). exists B. auto.
      - exists (fun _ => []). intros. lra. }
    destruct X2 as (B & HB).
    set (k0 := length ts) in *.
    exists (fun h => M (firstn k0 h) ++ (if Rlt_dec 0 (joint n ts (firstn k0 h) v) then B (firstn k0 h) (skipn k0 h) else map (fun _ => (0, 1)) (skipn k0 h))).
    assert (Hbr : forall h bits' w, branch c (o :: ops) h bits v bits' w <->
      exists os h', length os = k0 /\ h = os ++ h' /\ branch c ops h' (recorded st os bits) (part os) bits' w).
    { intros h bits' w. split.
      - intros H. inversion H as [|? ? ? ? ? ? ? Hz2|? ? ? ts2 ? ? x' ? ? _ Hm2|? ? mid2 st2 os h' ts2 ? ? x' ? ? _ Hk2 Hp2 Hl2 Hv2 H']; subst; try contradiction.
        + rewrite Ek in Hm2. discriminate.
        + assert (ts2 = ts) by (eapply placed_unique; eauto). subst ts2. rewrite Ek in Hk2. injection Hk2 as <- <-.
          exists os, h'. split; [exact Hl2|]. split; [reflexivity|]. eapply (branch_ext c Hnd); [exact H'|exact Hwf'|].
          intros i Hi. now rewrite Hv2.
      - intros (os & h' & Hl & -> & H). apply branch_measure with (mid := mid) (store := st) (ts := ts) (v' := part os); auto. }
    assert (Hfs : forall os (h' : list bool), length os = k0 -> firstn k0 (os ++ h') = os /\ skipn k0 (os ++ h') = h').
    { intros os h' E. rewrite <- E, firstn_app, skipn_app, firstn_all, skipn_all, Nat.sub_diag. cbn. now rewrite app_nil_r. }
    assert (Hun : forall rnd, (forall k, uniform (rnd k)) -> forall k, Forall uniform (map rnd (seq k k0)) /\ length (map rnd (seq k k0)) = k0).
    { intros rnd Hr k. split; [|now rewrite map_length, seq_length]. apply Forall_forall. intros r Hin. apply in_map_iff in Hin. destruct Hin as (j & <- & _). apply Hr. }
    (* branches of the rest, seen from the scaled state *)
    set (f := fun os => 1 / sqrt (joint n ts os v)).
    assert (Hf : forall os, 0 < joint n ts os v -> 0 < f os /\ f os * f os * joint n ts os v = 1).
    { intros os Hj. pose proof (sqrt_sqrt _ (Rlt_le _ _ Hj)) as Q. pose proof (sqrt_lt_R0 _ Hj) as Q0. unfold f. split.
      - apply Rdiv_lt_0_compat; lra.
      - rewrite <- Q at 3. field. lra. }
    assert (Hnx : forall os i, next os i = Cmul (RtoC (f os)) (part os i)) by (intros os i; unfold next, scaled, f; now rewrite Wp).
    assert (Hup : forall os h' bits' w, branch c ops h' (recorded st os bits) (part os) bits' w ->
      branch c ops h' (recorded st os bits) (next os) bits' (fun i => Cmul (RtoC (f os)) (w i))).
    { intros os h' bits' w H. eapply (branch_ext c Hnd); [apply (branch_scale c Hnd (RtoC (f os)) _ _ _ _ _ _ H Hwf')|exact Hwf'|]. intros i _. apply Hnx. }
    assert (Hdn : forall os h' bits' w, 0 < joint n ts os v -> branch c ops h' (recorded st os bits) (next os) bits' w ->
      exists w', branch c ops h' (recorded st os bits) (part os) bits' w').
    { intros os h' bits' w Hj H. destruct (Hf os Hj) as [F0 _].
      exists (fun i => Cmul (RtoC (/ f os)) (w i)). eapply (branch_ext c Hnd); [apply (branch_scale c Hnd (RtoC (/ f os)) _ _ _ _ _ _ H Hwf')|exact Hwf'|].
      intros i _. cbv beta. rewrite (Hnx os i). apply C_eq; unfold Cmul, RtoC, Re, Im; cbn; field; lra. }
    split.
    + intros h bits' w H. apply Hbr in H. destruct H as (os & h' & Hl & -> & H). destruct (Hfs os h' Hl) as [-> ->].
      destruct (HM os) as (M1 & M2 & M3 & M4); [now apply in_outcomes|].
      destruct (Rlt_dec 0 (joint n ts os v)) as [Hj|Hj].
      * destruct (HB os) as [B1 _]; [now apply in_outcomes|exact Hj|]. pose proof (Hup os h' bits' w H) as H1.
        destruct (B1 _ _ _ H1) as (C1 & C2 & C3 & C4). destruct (Hf os Hj) as [F0 F1].
        split; [rewrite !app_length; fold k0 in M1; lia|]. split; [now apply Forall_app|]. split.
        { rewrite volume_app, M3, C3, weight_scale. replace (joint n ts os v * (f os * f os * weight n w)) with (f os * f os * joint n ts os v * weight n w) by ring. rewrite F1. ring. }
        intros rnd m v0 Hr Hm Hv0 Hi. rewrite app_length, Hl, seq_app, map_app in Hi. apply inside_app in Hi; [|rewrite map_length, seq_length; now rewrite M1].
        destruct Hi as [I1 I2].
        destruct (measure_step rnd Hr c o mid st ops m v0 ts Hw Hnd Hn Ek Hp) as (m1 & w1 & os1 & S1 & S2 & S3 & S4 & S5 & S6).
        { now rewrite (Hsz m Hm). }
        { change (weight n v0 = 1). rewrite (weight_ext n v0 v Hv0). exact Hv. }
        assert (S2' : collapses n ts (map rnd (seq (m_pos Ccring m) k0)) os1 v w1) by (eapply collapses_ext; [exact S2|exact Hv0]).
        destruct (Hun rnd Hr (m_pos Ccring m)) as [U1 U2]. destruct (proj2 (M4 _ U1 U2) I1) as (w2 & S7).
        destruct (collapses_fun _ _ _ _ _ _ S2' _ _ _ S7 (fun _ _ => eq_refl)) as [-> _].
        destruct (collapses_joint _ _ _ _ _ _ S2' Hv) as [_ J2].
        assert (Hm1 : forall b, m_bits Ccring m1 b = recorded st os bits b) by (intros b; rewrite S5; now apply recorded_ext).
        assert (Hw1 : forall i, (i < 2 ^ n)%N -> w1 i = next os i).
        { intros i Hi. rewrite J2 by exact Hi. rewrite Hnx. unfold part, f. destruct (shows n i ts os); [reflexivity|].
          apply C_eq; unfold Cmul, C0, RtoC, Re, Im; cbn; ring. }
        fold k0 in S6. rewrite <- S6 in I2. destruct (C4 rnd m1 w1 Hr Hm1 Hw1 I2) as (D1 & m' & a & D2 & D3 & D4 & D5).
        assert (Hww : 0 < weight n w).
        { rewrite weight_scale in D1. destruct (Rle_lt_or_eq_dec _ _ (weight_nonneg n w)) as [Hx|Hx]; [exact Hx|]. rewrite <- Hx in D1. lra. }
        split; [exact Hww|]. exists m', a. split; [now rewrite S1|]. split; [exact D3|]. split; [rewrite D4, S6, app_length; lia|].
        intros i Hi. rewrite D5 by exact Hi. now apply scaled_scale.
      * split; [rewrite !app_length, map_length; fold k0 in M1; lia|]. split; [apply Forall_app; split; [exact M2|apply in_unit_unit]|].
        assert (J0 : joint n ts os v = 0) by (pose proof (joint_nonneg n ts os v); lra). split.
        { rewrite volume_app, M3, J0, Rmult_0_l. symmetry.
          assert (Z : forall i, (i < 2 ^ n)%N -> Cmul (RtoC 0) (part os i) = part os i).
          { intros i Hi. assert (P0 : Cnorm2 (part os i) = 0).
            { apply (Rsum_zero (Nrange (2 ^ n)) (fun j => Cnorm2 (part os j))); [intros; apply Cnorm2_pos| |now apply In_Nrange].
              change (weight n (part os) = 0). now rewrite Wp. }
            apply Cnorm2_zero in P0. rewrite P0. apply C_eq; unfold Cmul, C0, RtoC, Re, Im; cbn; ring. }
          pose proof (branch_scale c Hnd (RtoC 0) _ _ _ _ _ _ H Hwf') as H0.
          destruct (branch_fun c Hnd _ _ _ _ _ _ H _ _ _ Hwf' Z H0) as [_ W].
          rewrite <- (weight_ext n _ _ W), weight_scale. ring. }
        intros rnd m v0 Hr Hm Hv0 Hi. exfalso. rewrite app_length, Hl, seq_app, map_app in Hi. apply inside_app in Hi; [|rewrite map_length, seq_length; now rewrite M1].
        destruct Hi as [I1 _]. destruct (Hun rnd Hr (m_pos Ccring m)) as [U1 U2]. destruct (proj2 (M4 _ U1 U2) I1) as (w2 & S7).
        destruct (collapses_joint _ _ _ _ _ _ S7 Hv) as [J1 _]. lra.
    + intros rnd k Hr. destruct (Hun rnd Hr k) as [U1 U2].
      assert (X : exists os w1, collapses n ts (map rnd (seq k k0)) os v w1 /\ length os = k0).
      { destruct (sample_once_spec n ts rnd Hn Hlt Hr k v Hv) as (os & w1 & _ & Hc). exists os, w1. split; [exact Hc|]. now apply collapses_length in Hc. }
      destruct X as (os & w1 & Hc & Hl). destruct (collapses_joint _ _ _ _ _ _ Hc Hv) as [Hj _].
      destruct (HB os) as [_ B2]; [now apply in_outcomes|exact Hj|].
      destruct (B2 rnd (k + k0)%nat Hr) as (h' & bits' & w & D1 & D2 & D3).
      destruct (Hdn os h' bits' w Hj D1) as (w' & D1').
      exists (os ++ h'), bits', w'. destruct (Hfs os h' Hl) as [Ef Es]. split; [apply Hbr; exists os, h'; auto|]. split.
      * rewrite Ef, Es. destruct (Rlt_dec 0 (joint n ts os v)) as [_|Hx]; [|contradiction].
        destruct (HM os) as (M1 & _ & _ & M4); [now apply in_outcomes|].
        rewrite app_length, Hl, seq_app, map_app. apply inside_app; [rewrite map_length, seq_length; now rewrite M1|]. split; [|exact D2].
        apply (M4 _ U1 U2). eauto.
      * intros h2 bits2 w2 H Hi. apply Hbr in H. destruct H as (os2 & h2' & Hl2 & -> & H). destruct (Hfs os2 h2' Hl2) as [Ef2 Es2]. rewrite Ef2, Es2 in Hi.
        destruct (HM os2) as (M1 & _ & _ & M4); [now apply in_outcomes|].
        rewrite app_length, Hl2, seq_app, map_app in Hi. apply inside_app in Hi; [|rewrite map_length, seq_length; now rewrite M1]. destruct Hi as [I1 I2].
        destruct (proj2 (M4 _ U1 U2) I1) as (w3 & S7). destruct (collapses_fun _ _ _ _ _ _ Hc _ _ _ S7 (fun _ _ => eq_refl)) as [<- _].
        destruct (Rlt_dec 0 (joint n ts os v)) as [_|Hx]; [|contradiction].
        f_equal. eapply D3; [apply (Hup os); exact H|exact I2].
Qed.
End Circuit.

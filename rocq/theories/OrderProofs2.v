(** Simulations of a circuit whose operations are in another order. *)
From Coq Require Import List NArith Arith Bool Lia Reals Lra Permutation.
From Verif Require Import Py CRing Cplx KernelModel KernelSpec KernelProofs2 SimModel SimSpec SimReal SimProofs SimProofs2 SimProofs3 SimProofs4 MeasureSpec SimProofs7
  UnitarySpec CallSpec CallProofs CallProofs2 CallProofs3 SampleModel SampleSpec SampleProofs SampleProofs2 BranchSpec BranchProofs BranchProofs2 GateModel GateProofs2 RewriteSpec RewriteProofs
  RewriteProofs2 OrderSpec OrderProofs.
Import ListNotations.
Local Open Scope R_scope.

Lemma independent_sym o p : independent o p -> independent p o.
Proof. intros (A & B & D & E). split; [intros qs qs' q H1 H2 H3 H4; destruct (A qs' qs q H2 H1 H4 H3); auto|]. split; [exact D|]. split; [exact B|]. intros b H1 H2. exact (E b H2 H1). Qed.
Lemma reordered_sym both l l' : reordered both l l' -> reordered both l' l.
Proof.
  induction 1 as [|o l l' H IH|o p l Hi Hb|l1 l2 l3 H1 IH1 H2 IH2]; [constructor|now constructor| |now apply re_trans with l2].
  apply re_swap; [now apply independent_sym|auto].
Qed.
Lemma reordered_perm both l l' : reordered both l l' -> Permutation l l'.
Proof. induction 1; [constructor|now constructor|constructor|eapply perm_trans; eauto]. Qed.
Lemma reordered_in both l l' o : reordered both l l' -> In o l' -> In o l.
Proof. intros H. apply Permutation_in, Permutation_sym. now apply (reordered_perm both). Qed.

Section Order.
Variable c : scirc Ccring.
Hypothesis Hc : NoDup (sc_qubits Ccring c).
Hypothesis Hn : (num_qubits Ccring c <= 30)%N.
Notation n := (num_qubits Ccring c).
Definition fit (o : sop Ccring) : Prop := wf_op c o /\ unitary_kind (so_kind Ccring o).

Lemma placed_find qs ts : Forall2 (fun q t => nth_error (sc_qubits Ccring c) (N.to_nat t) = Some q) qs ts -> forall t, In t ts -> exists q, In q qs /\ nth_error (sc_qubits Ccring c) (N.to_nat t) = Some q.
Proof. clear. induction 1 as [|q t l l' H F IH]; intros x Hx; [destruct Hx|]. destruct Hx as [->|Hx]; [eauto using in_eq|]. destruct (IH x Hx) as (q' & ? & ?). eauto using in_cons. Qed.
Lemma placed_firstn k qs ts q t : Forall2 (fun q t => nth_error (sc_qubits Ccring c) (N.to_nat t) = Some q) qs ts -> nth_error (sc_qubits Ccring c) (N.to_nat t) = Some q ->
  In q (firstn k qs) -> In t (firstn k ts).
Proof.
  intros F E. revert k. induction F as [|q' t' l l' H F IH]; intros k Hi; destruct k as [|k]; try (destruct Hi; fail). cbn in Hi |- *. destruct Hi as [->|Hi]; [|right; auto].
  left. apply N2Nat.inj. apply (proj1 (NoDup_nth_error _) Hc); [apply nth_error_Some; congruence|congruence].
Qed.
Lemma placed_keeps k qs ts q t : Forall2 (fun q t => nth_error (sc_qubits Ccring c) (N.to_nat t) = Some q) qs ts -> nth_error (sc_qubits Ccring c) (N.to_nat t) = Some q ->
  keeps k qs q -> keeps k ts t.
Proof.
  intros F E. destruct k as [mid bits| | | |nc dim m|nq m]; cbn [keeps]; auto; try exact (placed_firstn _ qs ts q t F E).
  intros [K|K]; [left; exact (placed_firstn _ qs ts q t F E K)|now right].
Qed.
Lemma placed_shared o p ts us : independent o p -> placed c o ts -> placed c p us -> forall t, In t ts -> In t us -> keeps (so_kind Ccring o) ts t /\ keeps (so_kind Ccring p) us t.
Proof.
  intros (Hq & _) (qs & Eq & F1) (qs' & Eq' & F2) t Ht Ht'.
  destruct (placed_find _ _ F1 t Ht) as (q & Hq1 & N1), (placed_find _ _ F2 t Ht') as (q' & Hq2 & N2). assert (q' = q) by congruence. subst q'.
  destruct (Hq qs qs' q Eq Eq' Hq1 Hq2) as (K1 & K2). split; eapply placed_keeps; eauto.
Qed.
Lemma placed_below o ts : placed c o ts -> forall t, In t ts -> (t < n)%N.
Proof.
  clear Hn Hc. intros (qs & _ & F) t Ht. unfold num_qubits. induction F as [|q x l l' H F IH]; [destruct Ht|]. destruct Ht as [->|Ht]; [|auto].
  assert (N.to_nat t < length (sc_qubits Ccring c))%nat by (apply nth_error_Some; congruence). lia.
Qed.

Section Run.
Variable rnd : nat -> R.
Hypothesis Hrnd : forall k, uniform (rnd k).
Notation run := (run_pure_C rnd c false).

(** What one operation does. *)
Inductive step (o : sop Ccring) (m : mem Ccring) (v : N -> C) (m1 : mem Ccring) (w : N -> C) : Prop :=
| step_blocked : some_zero (m_bits Ccring m) (so_cond Ccring o) -> m1 = m -> w = v -> step o m v m1 w
| step_gate ts : ~ some_zero (m_bits Ccring m) (so_cond Ccring o) -> is_measure (so_kind Ccring o) = false -> placed c o ts ->
    m1 = m -> (forall i, (i < 2 ^ n)%N -> w i = @gate_action Ccring false n (so_kind Ccring o) ts v i) -> step o m v m1 w
| step_measure mid st ts os : ~ some_zero (m_bits Ccring m) (so_cond Ccring o) -> so_kind Ccring o = KMeasure Ccring mid st -> placed c o ts ->
    collapses n ts (map rnd (seq (m_pos Ccring m) (length ts))) os v w ->
    (forall b, m_bits Ccring m1 b = recorded st os (m_bits Ccring m) b) -> m_pos Ccring m1 = (m_pos Ccring m + length ts)%nat -> step o m v m1 w.

Lemma step_run o m v : fit o -> normalised n v -> exists m1 w, run [o] m v = (m1, Ok w) /\ normalised n w /\ step o m v m1 w.
Proof.
  intros (Hw & Hu) Hv. destruct (zero_dec (m_bits Ccring m) (so_cond Ccring o)) as [Z|Z].
  - exists m, v. split; [|split; [exact Hv|now apply step_blocked]]. change [o] with ([o] ++ []).
    rewrite (blocked_run rnd c (so_cond Ccring o) [o] [] m v); [reflexivity|intros x [<-|[]]; auto|exact Z].
  - destruct (placed_wf Ccring c o Hw) as (ts & _ & Hp & _). destruct (is_measure (so_kind Ccring o)) eqn:Em.
    + destruct (so_kind Ccring o) as [mid st| | | | |] eqn:Eo; try discriminate Em.
      destruct (measure_step rnd Hrnd c o mid st [] m v ts Hw Hc Hn Eo Hp Z Hv) as (m1 & w1 & os1 & E1 & C1 & N1 & _ & B1 & P1).
      exists m1, w1. split; [exact E1|]. split; [exact N1|]. eapply step_measure; eauto.
    + destruct (gate_step rnd c o [] m v ts Hw Hc Hn Em Hp Z) as (w1 & E1 & G1). exists m, w1. split; [exact E1|].
      split; [exact (gate_norm c Hc o ts v w1 Hw Em Hu Hp G1 Hv)|]. eapply step_gate; eauto.
Qed.

(** Two lists of operations do the same. *)
Definition same (m : mem Ccring) (v : N -> C) (m' : mem Ccring) (v' : N -> C) : Prop :=
  (forall b, m_bits Ccring m' b = m_bits Ccring m b) /\ m_pos Ccring m' = m_pos Ccring m /\ forall i, (i < 2 ^ n)%N -> v' i = v i.
Definition equiv (l l' : list (sop Ccring)) : Prop := forall m v m' v', normalised n v -> same m v m' v' ->
  exists m1 w m2 w', run l m v = (m1, Ok w) /\ run l' m' v' = (m2, Ok w') /\ same m1 w m2 w' /\ normalised n w.

Lemma same_sym m v m' v' : same m v m' v' -> same m' v' m v.
Proof. intros (A & B & D). split; [auto|]. split; [auto|]. intros i Hi. symmetry. auto. Qed.
Lemma same_trans m v m' v' m2 v2 : same m v m' v' -> same m' v' m2 v2 -> same m v m2 v2.
Proof. intros (A & B & D) (A' & B' & D'). split; [intros; now rewrite A'|]. split; [congruence|]. intros i Hi. now rewrite D', D. Qed.
Lemma same_norm m v m' v' : same m v m' v' -> normalised n v -> normalised n v'.
Proof. intros (_ & _ & D) Hv. unfold normalised in *. rewrite <- Hv. apply Rsum_ext. intros i Hi. apply in_Nrange in Hi. now rewrite D. Qed.
Lemma same_zero m v m' v' l : same m v m' v' -> some_zero (m_bits Ccring m) l -> some_zero (m_bits Ccring m') l.
Proof. intros (A & _) H. apply (some_zero_other _ _ l (fun b _ => A b) H). Qed.
Lemma same_phased m v m' v' : same m v m' v' -> phased n C1 v v'.
Proof. intros (_ & _ & D). split; [unfold Cnorm2, C1, Re, Im; cbn; ring|]. intros i Hi. rewrite D by exact Hi. ceq; ring. Qed.

Lemma gate_same o ts v v' w w' : wf_op c o -> is_measure (so_kind Ccring o) = false -> placed c o ts -> (forall i, (i < 2 ^ n)%N -> v' i = v i) ->
  (forall i, (i < 2 ^ n)%N -> w i = @gate_action Ccring false n (so_kind Ccring o) ts v i) ->
  (forall i, (i < 2 ^ n)%N -> w' i = @gate_action Ccring false n (so_kind Ccring o) ts v' i) -> forall i, (i < 2 ^ n)%N -> w' i = w i.
Proof.
  intros Hw Em Hp Hv H H' i Hi. rewrite (H i Hi), (H' i Hi). destruct (placed_good Ccring c o ts Hw Hc Hp Em) as (Hg & Hk).
  now apply (gate_action_ext Ccring).
Qed.
Lemma step_same o m v m' v' m1 w m2 w' : wf_op c o -> same m v m' v' -> step o m v m1 w -> step o m' v' m2 w' -> same m1 w m2 w'.
Proof.
  intros Hw S H H'. destruct H as [Z -> ->|ts Z Em Hp -> Hg|mid st ts os Z Ek Hp Hcol Hb Hpos]; destruct H' as [Z' -> ->|ts' Z' Em' Hp' -> Hg'|mid' st' ts' os' Z' Ek' Hp' Hcol' Hb' Hpos'];
    try (exfalso; apply Z'; eapply same_zero; eauto; fail); try (exfalso; apply Z; eapply same_zero; [apply same_sym|]; eauto; fail).
  - exact S.
  - assert (ts' = ts) by (exact (placed_unique Ccring c o ts' ts Hc Hp' Hp)). subst ts'. destruct S as (A & B & D). split; [exact A|]. split; [exact B|].
    exact (gate_same o ts v v' w w' Hw Em Hp D Hg Hg').
  - rewrite Ek' in Em. discriminate Em.
  - rewrite Ek in Em'. discriminate Em'.
  - rewrite Ek in Ek'. injection Ek' as <- <-. assert (ts' = ts) by (exact (placed_unique Ccring c o ts' ts Hc Hp' Hp)). subst ts'.
    pose proof (same_phased _ _ _ _ S) as Ph. destruct S as (A & B & D). rewrite B in Hcol'.
    destruct (phased_collapses n ts _ os v w Hcol C1 v' os' w' Ph Hcol') as (-> & _ & Hw').
    split; [intros b; rewrite Hb', Hb; now apply recorded_ext|]. split; [now rewrite Hpos', Hpos, B|]. intros i Hi. rewrite (Hw' i Hi). ceq; ring.
Qed.

Lemma equiv_nil : equiv [] [].
Proof. intros m v m' v' Hv S. exists m, v, m', v'. split; [reflexivity|]. split; [reflexivity|]. auto. Qed.
Lemma run_cons o l m v : run (o :: l) m v = match run [o] m v with (m', Ok u) => run l m' u | (m', Err e) => (m', Err e) end.
Proof. unfold run_pure_C. change (o :: l) with ([o] ++ l). now rewrite run_pure_app. Qed.
Lemma equiv_cons o l l' : fit o -> equiv l l' -> equiv (o :: l) (o :: l').
Proof.
  intros Ho H m v m' v' Hv S. destruct (step_run o m v Ho Hv) as (m1 & w & E & Nw & St).
  destruct (step_run o m' v' Ho (same_norm _ _ _ _ S Hv)) as (m2 & w' & E' & _ & St'). rewrite (run_cons o l), (run_cons o l'), E, E'.
  apply H; [exact Nw|]. exact (step_same o m v m' v' m1 w m2 w' (proj1 Ho) S St St').
Qed.
Lemma equiv_refl l : (forall o, In o l -> fit o) -> equiv l l.
Proof. induction l as [|o l IH]; intros H; [exact equiv_nil|]. apply equiv_cons; [apply H; now left|]. apply IH. intros x Hx. apply H. now right. Qed.
Lemma equiv_sym l l' : equiv l l' -> equiv l' l.
Proof.
  intros H m v m' v' Hv S. destruct (H m' v' m v (same_norm _ _ _ _ S Hv) (same_sym _ _ _ _ S)) as (m1 & w & m2 & w' & E1 & E2 & S' & Nw).
  exists m2, w', m1, w. split; [exact E2|]. split; [exact E1|]. split; [now apply same_sym|]. eapply same_norm; eauto.
Qed.
Lemma equiv_trans l1 l2 l3 : equiv l1 l2 -> equiv l2 l3 -> equiv l1 l3.
Proof.
  intros H H' m v m' v' Hv S. destruct (H m v m v Hv) as (m1 & w & m2 & w' & E1 & E2 & S' & Nw); [split; [auto|split; auto]|].
  destruct (H' m v m' v' Hv S) as (m3 & x & m4 & x' & E3 & E4 & S'' & _). rewrite E2 in E3. injection E3 as <- <-.
  exists m1, w, m4, x'. split; [exact E1|]. split; [exact E4|]. split; [eapply same_trans; eauto|exact Nw].
Qed.

Lemma step_bits o m v m1 w : step o m v m1 w -> forall b, ~ In b (written o) -> m_bits Ccring m1 b = m_bits Ccring m b.
Proof.
  intros [Z -> ->|ts Z Em Hp -> Hg|mid st ts os Z Ek Hp Hcol Hb Hpos] b Hnb; [reflexivity|reflexivity|].
  rewrite Hb. apply recorded_other. unfold written in Hnb. now rewrite Ek in Hnb.
Qed.

(** Two steps in both orders; the first operation is a gate or both are. *)
Lemma steps_swap o p m v m1 w1 m2 w2 n1 x1 n2 x2 : fit o -> fit p -> independent o p -> is_measure (so_kind Ccring p) = false ->
  step o m v m1 w1 -> step p m1 w1 m2 w2 -> step p m v n1 x1 -> step o n1 x1 n2 x2 -> same m2 w2 n2 x2.
Proof.
  intros (Wo & Uo) (Wp & Up) Hi Mp S1 S2 S3 S4. pose proof Hi as (Hq & Hop & Hpo & _).
  assert (B1 : forall b, In b (so_cond Ccring p) -> m_bits Ccring m1 b = m_bits Ccring m b) by (intros b Hb; eapply step_bits; [exact S1|]; intros Hw; exact (Hop b Hw Hb)).
  assert (Hn1 : n1 = m). { destruct S3 as [Z -> ->|ts Z Em Hp -> Hg|mid st ts os Z Ek Hp Hcol Hb Hpos]; auto. rewrite Ek in Mp. discriminate Mp. } subst n1.
  assert (Hm2 : m2 = m1). { destruct S2 as [Z -> ->|ts Z Em Hp -> Hg|mid st ts os Z Ek Hp Hcol Hb Hpos]; auto. rewrite Ek in Mp. discriminate Mp. } subst m2.
  assert (Triv : forall a x, same a x a x) by (intros; split; [auto|split; auto]).
  destruct S3 as [Z Em Ev|us Z Em Hp _ Hg|mid st ts os Z Ek Hp Hcol Hb Hpos]; [| |rewrite Ek in Mp; discriminate Mp].
  - subst x1. assert (w2 = w1). { destruct S2 as [Z' _ ->|us Z' Em' Hp _ Hg|mid st ts os Z' Ek Hp Hcol Hb Hpos]; [reflexivity| |rewrite Ek in Mp; discriminate Mp].
      exfalso. apply Z'. eapply some_zero_other; [|exact Z]. auto. } subst w2.
    exact (step_same o m v m v m1 w1 n2 x2 Wo (Triv m v) S1 S4).
  - destruct S2 as [Z' _ ->|us' Z' _ Hp' _ Hg'|mid st ts os Z' Ek Hp' Hcol Hb Hpos]; [|  |rewrite Ek in Mp; discriminate Mp].
    { exfalso. apply Z. eapply some_zero_other; [|exact Z']. intros; symmetry; auto. }
    assert (us' = us) by (exact (placed_unique Ccring c p us' us Hc Hp' Hp)). subst us'.
    destruct (placed_good Ccring c p us Wp Hc Hp Mp) as (Gp & Kp).
    destruct S1 as [Zo -> ->|ts Zo Mo Ho -> Go|mid st ts os Zo Ek Ho Hcol Hb Hpos].
    + destruct S4 as [_ -> ->|ts Zo' _ _ _ _|mid st ts os Zo' _ _ _ _ _]; try (exfalso; apply Zo'; exact Zo).
      split; [auto|]. split; [auto|]. exact (gate_same p us v v w2 x1 Wp Mp Hp (fun _ _ => eq_refl) Hg' Hg).
    + destruct S4 as [Zo' _ _|ts' Zo' _ Ho' -> Go'|mid st ts' os Zo' Ek _ _ _ _]; [contradiction| |rewrite Ek in Mo; discriminate Mo].
      assert (ts' = ts) by (exact (placed_unique Ccring c o ts' ts Hc Ho' Ho)). subst ts'. destruct (placed_good Ccring c o ts Wo Hc Ho Mo) as (Gto & Ko).
      split; [auto|]. split; [auto|]. intros i Hil. rewrite (Go' i Hil), (Hg' i Hil).
      rewrite (gate_action_ext Ccring false n _ us w1 (@gate_action Ccring false n (so_kind Ccring o) ts v) i Kp Gp Hil Go).
      rewrite (gate_action_ext Ccring false n _ ts x1 (@gate_action Ccring false n (so_kind Ccring p) us v) i Ko Gto Hil Hg).
      apply gates_shared; auto. exact (placed_shared o p ts us Hi Ho Hp).
    + destruct S4 as [Zo' _ _|ts' Zo' Mo _ _ _|mid' st' ts' os' Zo' Ek' Ho' Hcol' Hb' Hpos']; [contradiction|rewrite Ek in Mo; discriminate Mo|].
      rewrite Ek in Ek'. injection Ek' as <- <-. assert (ts' = ts) by (exact (placed_unique Ccring c o ts' ts Hc Ho' Ho)). subst ts'.
      assert (Hts : forall t, In t ts -> (t < n)%N /\ (In t us -> keeps (so_kind Ccring p) us t)) by (intros t Ht; split; [exact (placed_below o ts Ho t Ht)|intros Hu; exact (proj2 (placed_shared o p ts us Hi Ho Hp t Ht Hu))]).
      pose proof (gate_collapses n _ us Kp Gp Up ts _ os v w1 Hcol Hts x1 w2 Hg Hg') as Hcol2.
      destruct (phased_collapses n ts _ os x1 w2 Hcol2 C1 x1 os' x2 (phased_refl n x1) Hcol') as (-> & _ & Hw').
      split; [intros b; now rewrite Hb', Hb|]. split; [now rewrite Hpos', Hpos|]. intros i Hil. rewrite (Hw' i Hil). ceq; ring.
Qed.

Lemma equiv_swap o p l : fit o -> fit p -> (forall x, In x l -> fit x) -> independent o p -> is_measure (so_kind Ccring p) = false -> equiv (o :: p :: l) (p :: o :: l).
Proof.
  intros Ho Hp Hl Hi Mp m v m' v' Hv S. pose proof (same_norm _ _ _ _ S Hv) as Hv'.
  destruct (step_run o m v Ho Hv) as (m1 & w1 & E1 & N1 & S1). destruct (step_run p m1 w1 Hp N1) as (m2 & w2 & E2 & N2 & S2).
  destruct (step_run p m v Hp Hv) as (n1 & x1 & F1 & M1 & T1). destruct (step_run o n1 x1 Ho M1) as (n2 & x2 & F2 & M2 & T2).
  destruct (step_run p m' v' Hp Hv') as (k1 & y1 & G1 & L1 & U1). destruct (step_run o k1 y1 Ho L1) as (k2 & y2 & G2 & L2 & U2).
  rewrite (run_cons o (p :: l)), (run_cons p (o :: l)), E1, G1, (run_cons p l), (run_cons o l), E2, G2.
  apply (equiv_refl l Hl); [exact N2|].
  pose proof (steps_swap o p m v m1 w1 m2 w2 n1 x1 n2 x2 Ho Hp Hi Mp S1 S2 T1 T2) as X.
  pose proof (step_same p m v m' v' n1 x1 k1 y1 (proj1 Hp) S T1 U1) as Y. pose proof (step_same o n1 x1 k1 y1 n2 x2 k2 y2 (proj1 Ho) Y T2 U2) as Z.
  exact (same_trans _ _ _ _ _ _ X Z).
Qed.

Theorem reordered_run l l' : reordered false l l' -> (forall o, In o l -> fit o) -> equiv l l'.
Proof.
  induction 1 as [|o l l' H IH|o p l Hi Hb|l1 l2 l3 H1 IH1 H2 IH2]; intros Hl.
  - exact equiv_nil.
  - apply equiv_cons; [apply Hl; now left|]. apply IH. intros x Hx. apply Hl. now right.
  - assert (Fo : fit o) by (apply Hl; cbn; auto). assert (Fp : fit p) by (apply Hl; cbn; auto). assert (Fl : forall x, In x l -> fit x) by (intros; apply Hl; cbn; auto).
    destruct (is_measure (so_kind Ccring p)) eqn:Mp; [|now apply equiv_swap].
    destruct (is_measure (so_kind Ccring o)) eqn:Mo; [specialize (Hb eq_refl eq_refl); discriminate Hb|].
    apply equiv_sym, equiv_swap; auto. now apply independent_sym.
  - apply equiv_trans with l2; [now apply IH1|]. apply IH2. intros o Ho. apply Hl. eapply reordered_in; eauto.
Qed.
End Run.
End Order.

Theorem reordered_simulate c ops : wf_circ c -> unitary_circ c -> (num_qubits Ccring c <= 30)%N -> reordered false (sc_ops Ccring c) ops ->
  forall rnd (m m' : mem Ccring), (forall k, uniform (rnd k)) -> (forall b, m_bits Ccring m' b = m_bits Ccring m b) -> m_pos Ccring m' = m_pos Ccring m ->
  exists m1 a m2 a', simulate_C rnd c false false m = (m1, Ok (SVec Ccring a)) /\ simulate_C rnd (mkScirc Ccring (sc_qubits Ccring c) ops) false false m' = (m2, Ok (SVec Ccring a')) /\
    (forall b, m_bits Ccring m2 b = m_bits Ccring m1 b) /\ m_pos Ccring m2 = m_pos Ccring m1 /\ forall i, (i < 2 ^ num_qubits Ccring c)%N -> a' i = a i.
Proof.
  intros (A1 & A2 & A3) Uc Hn H rnd m m' Hr Hb Hp.
  destruct (reordered_run c A1 Hn rnd Hr _ _ H (fun o Ho => conj (A3 o Ho) (Uc o Ho)) m (zero_state Ccring) m' (zero_state Ccring) (zero_normalised _)) as (m1 & a & m2 & a' & E1 & E2 & (E3 & E4 & E5) & _); [split; [exact Hb|split; [exact Hp|auto]]|].
  exists m1, a, m2, a'. unfold run_pure_C in *. unfold simulate_C, simulate. cbn [sc_qubits sc_ops]. destruct (sc_qubits Ccring c) eqn:Q1; [congruence|].
  rewrite E1. split; [reflexivity|]. split; [|auto].
  replace (run_pure Ccring R Cgtb Cis0 Cinvsqrt rnd (mkScirc Ccring (n :: l) ops) false ops m' (zero_state Ccring)) with (run_pure Ccring R Cgtb Cis0 Cinvsqrt rnd c false ops m' (zero_state Ccring)); [now rewrite E2|].
  assert (X : forall l0 m0 v, run_pure Ccring R Cgtb Cis0 Cinvsqrt rnd (mkScirc Ccring (n :: l) ops) false l0 m0 v = run_pure Ccring R Cgtb Cis0 Cinvsqrt rnd c false l0 m0 v); [|now rewrite X].
  rewrite <- Q1. intros l0. induction l0 as [|o l0 IH]; intros m0 v; [reflexivity|]. cbn [run_pure].
  change (target_indices Ccring (mkScirc Ccring (sc_qubits Ccring c) ops) o) with (target_indices Ccring c o).
  change (num_qubits Ccring (mkScirc Ccring (sc_qubits Ccring c) ops)) with (num_qubits Ccring c).
  destruct (target_indices Ccring c o) as [ts|]; [|reflexivity]. destruct (apply_instruction _ _ _ _ _ _ _ _ _ _ _ _ _) as [m3 [v3|]]; [apply IH|reflexivity].
Qed.

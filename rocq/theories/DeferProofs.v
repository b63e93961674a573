(** Measurements put later, split and merged: simulations. *)
From Coq Require Import List NArith Arith Bool Lia Reals Lra Permutation.
From Verif Require Import Py CRing Cplx KernelModel KernelSpec KernelProofs2 SimModel SimSpec SimReal SimProofs SimProofs2 SimProofs3 SimProofs4 MeasureSpec SimProofs7
  UnitarySpec CallSpec CallProofs CallProofs2 CallProofs3 SampleModel SampleSpec SampleProofs SampleProofs2 BranchSpec BranchProofs BranchProofs2 GateModel GateProofs2 RewriteSpec RewriteProofs
  RewriteProofs2 OrderSpec OrderProofs OrderProofs2 DeferSpec.
From Verif Require QirSemProofs2.
Import ListNotations.
Local Open Scope R_scope.

Section Defer.
Variable c : scirc Ccring.
Hypothesis Hc : NoDup (sc_qubits Ccring c).
Notation n := (num_qubits Ccring c).
Notation fits := (fun l => forall o, In o l -> fit c o).

Lemma fits_cons o l : fits (o :: l) <-> fit c o /\ fits l.
Proof. split; [intros H; split; [apply H; now left|intros x Hx; apply H; now right]|intros (A & B) x [<-|Hx]; auto]. Qed.
Lemma fit_measures mid qs bs k : fit c (measures mid qs bs k) <-> incl qs (sc_qubits Ccring c).
Proof.
  split.
  - intros ((l & [= <-] & H & _) & _). exact H.
  - intros H. split; [|exact I]. exists qs. split; [reflexivity|]. split; [exact H|]. split; [discriminate|]. split; [discriminate|exact I].
Qed.
Lemma fit_acts m t k : fit c (acts m t k) <-> In t (sc_qubits Ccring c) /\ @KernelSpec.unitary Ccring 2 m.
Proof.
  split.
  - intros ((l & [= <-] & H & _) & U). split; [apply H; now left|exact U].
  - intros (H & U). split; [|exact U]. exists [t]. split; [reflexivity|]. split; [intros x [<-|[]]; exact H|]. split; [repeat constructor; cbn; auto|]. split; [intros a [= <-]; reflexivity|reflexivity].
Qed.
Lemma fit_acts_if m q t k : fit c (acts_if m q t k) <-> In q (sc_qubits Ccring c) /\ In t (sc_qubits Ccring c) /\ q <> t /\ @KernelSpec.unitary Ccring 2 m.
Proof.
  split.
  - intros ((l & [= <-] & H & Nd & _) & U). split; [apply H; now left|]. split; [apply H; cbn; auto|]. split; [|exact U].
    intros ->. specialize (Nd eq_refl). inversion Nd as [|? ? Hn]; subst. apply Hn. now left.
  - intros (H1 & H2 & H3 & U). split; [|exact U]. exists [q; t]. split; [reflexivity|]. split; [intros x [<-|[<-|[]]]; assumption|].
    split; [intros _; repeat constructor; cbn; intuition congruence|]. split; [intros a [= <-]; reflexivity|split; [now left|reflexivity]].
Qed.
Lemma remeasured_fits both l l' : remeasured both l l' -> (fits l <-> fits l').
Proof.
  induction 1 as [|o l l' H IH|o p l Hi Hb|mid q t b m k l Hq Hk|mid mid1 mid2 qs1 qs2 bs1 bs2 k l Hl Hk|l l' H IH|l1 l2 l3 H1 IH1 H2 IH2].
  - reflexivity.
  - rewrite !fits_cons, IH. reflexivity.
  - rewrite !fits_cons. tauto.
  - rewrite !fits_cons, fit_measures, fit_acts, fit_acts_if. unfold incl. cbn. split; intros; intuition; subst; auto.
  - rewrite !fits_cons, !fit_measures. split; [intros (A & B & D); split; [now apply incl_app|exact D]|].
    intros (A & D). apply incl_app_inv in A. tauto.
  - symmetry. exact IH.
  - now rewrite IH1.
Qed.

Lemma placed_join mid mid1 mid2 qs1 qs2 bs1 bs2 k ts1 ts2 : placed c (measures mid1 qs1 bs1 k) ts1 -> placed c (measures mid2 qs2 bs2 k) ts2 ->
  placed c (measures mid (qs1 ++ qs2) (bs1 ++ bs2) k) (ts1 ++ ts2).
Proof. intros (x & [= <-] & F) (y & [= <-] & G). exists (qs1 ++ qs2). split; [reflexivity|]. now apply Forall2_app. Qed.
Lemma placed_length mid qs bs k ts : placed c (measures mid qs bs k) ts -> length ts = length qs.
Proof. intros (x & [= <-] & F). clear -F. induction F; cbn; congruence. Qed.
Lemma recorded_app bs1 bs2 os1 os2 f : length os1 = length bs1 -> recorded (Some (bs1 ++ bs2)) (os1 ++ os2) f = recorded (Some bs2) os2 (recorded (Some bs1) os1 f).
Proof.
  intros H. unfold recorded. replace (combine (bs1 ++ bs2) (os1 ++ os2)) with (combine bs1 os1 ++ combine bs2 os2); [apply fold_left_app|].
  revert os1 H. induction bs1 as [|b bs1 IH]; intros [|o os1] H; try discriminate H; [reflexivity|]. cbn. f_equal. apply IH. now injection H.
Qed.
Lemma zero_recorded st os bits l : (forall b, In b (match st with Some bs => bs | None => [] end) -> ~ In b l) -> (some_zero (recorded st os bits) l <-> some_zero bits l).
Proof. intros H. split; apply some_zero_other; intros b Hb; [symmetry|]; apply recorded_other; intros Hb'; exact (H b Hb' Hb). Qed.

(** A controlled gate, by the value of the control. *)
Lemma acts_if_action m q t v i : @gate_action Ccring false n (KControlled Ccring 1 2 m) [q; t] v i =
  if qbit false n i q then @gate_action Ccring false n (KOther Ccring 1 m) [t] v i else v i.
Proof. cbn [gate_action]. unfold op_apply. cbn [forallb]. rewrite andb_true_r. reflexivity. Qed.

Lemma acts_good m t k tt : fit c (acts m t k) -> placed c (acts m t k) [tt] -> good_targets n [tt] /\ good_kind Ccring (KOther Ccring 1 m) [tt].
Proof. intros (W & _) Hp. exact (placed_good Ccring c _ _ W Hc Hp eq_refl). Qed.
Lemma acts_if_prob m t k tt q o v : fit c (acts m t k) -> placed c (acts m t k) [tt] -> (q < n)%N -> q <> tt ->
  prob false n q o (@gate_action Ccring false n (KControlled Ccring 1 2 m) [q; tt] v) = prob false n q o v.
Proof.
  intros Hf Hp Hq Hd. destruct (acts_good m t k tt Hf Hp) as (G & K). destruct o.
  - transitivity (prob false n q true (@gate_action Ccring false n (KOther Ccring 1 m) [tt] v)).
    + rewrite !prob_if. apply Rsum_ext. intros i _. rewrite acts_if_action. destruct (qbit false n i q); reflexivity.
    + apply (gate_prob n (KOther Ccring 1 m) [tt] K G (proj2 Hf)); auto. intros [H|[]]. exfalso. congruence.
  - rewrite !prob_if. apply Rsum_ext. intros i _. rewrite acts_if_action. destruct (qbit false n i q); reflexivity.
Qed.

Section Run.
Hypothesis Hn : (n <= 30)%N.
Variable rnd : nat -> R.
Hypothesis Hrnd : forall k, uniform (rnd k).
Notation step := (step c rnd).
Notation same := (same c).
Notation equiv := (equiv c rnd).
Notation run := (run_pure_C rnd c false).

(** Two operations instead of two or one. *)
Lemma equiv_pair o p l L : fit c o -> fit c p -> fits l -> fits L ->
  (forall m v m1 w1 m2 w2 m' w', normalised n v -> step o m v m1 w1 -> step p m1 w1 m2 w2 -> run L m v = (m', Ok w') -> same m2 w2 m' w') -> equiv (o :: p :: l) (L ++ l).
Proof.
  intros Fo Fp Fl FL H m v m' v' Hv S. pose proof (same_norm c _ _ _ _ S Hv) as Hv'.
  destruct (step_run c Hc Hn rnd Hrnd o m v Fo Hv) as (m1 & w1 & E1 & N1 & S1). destruct (step_run c Hc Hn rnd Hrnd p m1 w1 Fp N1) as (m2 & w2 & E2 & N2 & S2).
  rewrite (run_cons c rnd o (p :: l)), E1, (run_cons c rnd p l), E2. unfold run_pure_C in *. rewrite run_pure_app.
  destruct (equiv_refl c Hc Hn rnd Hrnd L FL m v m' v' Hv S) as (a & x & b & y & R1 & R2 & R3 & _). unfold run_pure_C in R1, R2. rewrite R2.
  apply (equiv_refl c Hc Hn rnd Hrnd l Fl); [exact N2|]. exact (same_trans c _ _ _ _ _ _ (H m v m1 w1 m2 w2 a x Hv S1 S2 R1) R3).
Qed.
Lemma equiv_merge mid mid1 mid2 qs1 qs2 bs1 bs2 k l : length bs1 = length qs1 -> (forall b, In b bs1 -> ~ In b k) -> fits (measures mid1 qs1 bs1 k :: measures mid2 qs2 bs2 k :: l) ->
  equiv (measures mid1 qs1 bs1 k :: measures mid2 qs2 bs2 k :: l) (measures mid (qs1 ++ qs2) (bs1 ++ bs2) k :: l).
Proof.
  intros Hl Hk Hf. apply fits_cons in Hf. destruct Hf as (F1 & Hf). apply fits_cons in Hf. destruct Hf as (F2 & Fl).
  assert (F : fit c (measures mid (qs1 ++ qs2) (bs1 ++ bs2) k)) by (apply fit_measures; apply fit_measures in F1, F2; now apply incl_app).
  assert (FL : fits [measures mid (qs1 ++ qs2) (bs1 ++ bs2) k]) by (intros x [<-|[]]; exact F).
  apply (equiv_pair _ _ l [measures mid (qs1 ++ qs2) (bs1 ++ bs2) k]); auto.
  intros m v m1 w1 m2 w2 m' w' Hv S1 S2 R. destruct (step_run c Hc Hn rnd Hrnd _ m v F Hv) as (m3 & w3 & E3 & _ & S3). rewrite R in E3. injection E3 as <- <-.
  destruct S1 as [Z -> ->|ts _ Em|mid1' st1 ts1 os1 Z Ek P1 C1 B1 Q1]; [|discriminate Em|].
  - destruct S2 as [Z' -> ->|ts _ Em|mid2' st2 ts2 os2 Z' Ek P2 C2 B2 Q2]; [|discriminate Em|contradiction].
    destruct S3 as [_ -> ->|ts _ Em|mid' st ts os Z3 Ek P3 C3 B3 Q3]; [|discriminate Em|contradiction]. split; [auto|split; auto].
  - injection Ek as <- <-. assert (K : forall b, m_bits Ccring m1 b = recorded (Some bs1) os1 (m_bits Ccring m) b) by exact B1.
    destruct S2 as [Z' _ _|ts _ Em|mid2' st2 ts2 os2 Z' Ek P2 C2 B2 Q2]; [|discriminate Em|].
    { exfalso. apply Z. apply (some_zero_other (m_bits Ccring m1) _ k); [|exact Z']. intros b Hb. rewrite K. symmetry. apply recorded_other. intros Hb'. exact (Hk b Hb' Hb). }
    injection Ek as <- <-.
    destruct S3 as [Z'' _ _|ts _ Em|mid' st ts os Z'' Ek P3 C3 B3 Q3]; [contradiction|discriminate Em|]. injection Ek as <- <-.
    assert (ts = ts1 ++ ts2) by (exact (placed_unique Ccring c _ ts (ts1 ++ ts2) Hc P3 (placed_join mid mid1 mid2 qs1 qs2 bs1 bs2 k ts1 ts2 P1 P2))). subst ts.
    pose proof (QirSemProofs2.collapses_app _ _ _ _ _ _ C1 _ _ _ _ C2) as C4. rewrite Q1, <- map_app, <- seq_app, <- app_length in C4.
    destruct (collapses_fun _ _ _ _ _ _ C4 _ _ _ C3 (fun _ _ => eq_refl)) as (<- & Hw).
    destruct (collapses_length _ _ _ _ _ _ C1) as (L1 & _). split; [|split].
    + intros b. rewrite B3, recorded_app; [|rewrite L1, (placed_length _ _ _ _ _ P1); auto]. rewrite B2. symmetry. apply recorded_ext. exact K.
    + rewrite Q3, Q2, Q1, app_length. lia.
    + intros i Hi. symmetry. auto.
Qed.

Lemma equiv_defer mid q t b m k l : q <> t -> ~ In b k -> fits (measures mid [q] [b] k :: acts m t (b :: k) :: l) ->
  equiv (measures mid [q] [b] k :: acts m t (b :: k) :: l) (acts_if m q t k :: measures mid [q] [b] k :: l).
Proof.
  intros Hq Hk Hf. pose proof Hf as Hf'. apply fits_cons in Hf. destruct Hf as (F1 & Hf). apply fits_cons in Hf. destruct Hf as (F2 & Fl).
  pose proof (proj1 (remeasured_fits false _ _ (rm_defer false mid q t b m k l Hq Hk)) Hf') as H3. pose proof (H3 _ (or_introl eq_refl)) as F3. clear H3 Hf'.
  assert (FL : fits [acts_if m q t k; measures mid [q] [b] k]) by (intros x [<-|[<-|[]]]; assumption).
  apply (equiv_pair _ _ l [acts_if m q t k; measures mid [q] [b] k]); auto.
  intros m0 v m1 w1 m2 w2 m' w' Hv S1 S2 R.
  destruct (step_run c Hc Hn rnd Hrnd _ m0 v F3 Hv) as (m3 & w3 & E3 & N3 & S3). rewrite (run_cons c rnd), E3 in R.
  destruct (step_run c Hc Hn rnd Hrnd _ m3 w3 F1 N3) as (m4 & w4 & E4 & _ & S4). rewrite R in E4. injection E4 as <- <-.
  destruct S1 as [Z -> ->|ts _ Em|mid1 st1 ts1 os1 Z Ek P1 C1 B1 Q1]; [|discriminate Em|].
  - cbn [so_cond measures] in Z. destruct S2 as [_ -> ->|ts Z' Em P2 -> G2|mid2 st2 ts2 os2 _ Ek]; [| |discriminate Ek].
    2: { exfalso. apply Z'. destruct Z as (x & Hx & Ex). exists x. split; [right; exact Hx|exact Ex]. }
    destruct S3 as [_ -> ->|ts Z' Em P3 -> G3|mid3 st3 ts3 os3 _ Ek]; [|contradiction|discriminate Ek].
    destruct S4 as [_ -> ->|ts _ Em|mid4 st4 ts4 os4 Z' Ek P4 C4 B4 Q4]; [split; [auto|split; auto]|discriminate Em|contradiction].
  - injection Ek as <- <-. cbn [so_cond measures] in Z.
    destruct S3 as [Z' _ _|ts3 Z' _ P3 -> G3|mid3 st3 ts3 os3 _ Ek]; [contradiction| |discriminate Ek].
    destruct S4 as [Z'' _ _|ts _ Em|mid4 st4 ts4 os4 Z'' Ek P4 C4 B4 Q4]; [contradiction|discriminate Em|]. injection Ek as <- <-.
    assert (ts4 = ts1) by (exact (placed_unique Ccring c _ _ _ Hc P4 P1)). subst ts4.
    destruct P3 as (x & [= <-] & F). inversion F as [|? tq ? ? A1 F']; subst. inversion F' as [|? tt ? ? A2 F'']; subst. inversion F''; subst. clear F F' F''.
    assert (P1' : placed c (measures mid [q] [b] k) [tq]) by (exists [q]; split; [reflexivity|repeat constructor; exact A1]).
    assert (ts1 = [tq]) by (exact (placed_unique Ccring c _ _ _ Hc P1 P1')). subst ts1.
    assert (P2 : placed c (acts m t (b :: k)) [tt]) by (exists [t]; split; [reflexivity|repeat constructor; exact A2]).
    assert (Hd : tq <> tt) by (intros ->; congruence).
    assert (Ltq : (tq < n)%N) by (exact (placed_below c _ _ P1' tq (or_introl eq_refl))).
    destruct (acts_good m t (b :: k) tt F2 P2) as (G & K).
    cbn [length seq map] in C1, C4. inversion C1 as [|? ? ? ? o os ? v1 ? Ho Hpo Hv1 Hr1]; subst. inversion Hr1 as [? ? Hw1|]; subst.
    inversion C4 as [|? ? ? ? o' os' ? v4 ? Ho' Hpo' Hv4 Hr4]; subst. inversion Hr4 as [? ? Hw4|]; subst. clear C1 C4 Hr1 Hr4.
    assert (Pr : forall y, prob false n tq y w3 = prob false n tq y v).
    { intros y. rewrite <- (acts_if_prob m t (b :: k) tt tq y v F2 P2 Ltq Hd). apply prob_ext. exact G3. }
    assert (o' = o) by (rewrite Pr in Ho'; exact (bool_of o o' _ Ho Ho')). subst o'.
    assert (Hb1 : m_bits Ccring m1 b = Some o) by (rewrite B1; cbn; now rewrite Nat.eqb_refl).
    assert (Hw3 : forall i, (i < 2 ^ n)%N -> w3 i = if qbit false n i tq then @gate_action Ccring false n (KOther Ccring 1 m) [tt] v i else v i).
    { intros i Hi. rewrite (G3 i Hi). apply acts_if_action. }
    destruct o.
    + destruct S2 as [Z2 _ _|ts2 Z2 _ P2' -> G2|mid2 st2 ts2 os2 _ Ek]; [| |discriminate Ek].
      { exfalso. destruct Z2 as (x & [<-|Hx] & Ex); [congruence|]. apply Z. exists x. split; [exact Hx|]. rewrite <- Ex, B1. symmetry. apply recorded_other. intros [<-|[]]. contradiction. }
      assert (ts2 = [tt]) by (exact (placed_unique Ccring c _ _ _ Hc P2' P2)). subst ts2.
      split; [intros x; now rewrite B4, B1|]. split; [now rewrite Q4, Q1|].
      intros i Hi. rewrite (Hw4 i Hi), (Hv4 i Hi), (G2 i Hi), Pr, (Hw3 i Hi). cbn [so_kind acts].
      rewrite (gate_action_ext Ccring false n (KOther Ccring 1 m) [tt] w1 (fun j => if shows n j [tq] [true] then Cmul (RtoC (1 / sqrt (prob false n tq true v))) (v j) else C0) i K G Hi);
        [|intros j Hj; rewrite (Hw1 j Hj), (Hv1 j Hj); cbn [shows]; now rewrite andb_true_r].
      rewrite (gate_shows n (KOther Ccring 1 m) [tt] K G); [|exact Hi|intros x [<-|[]]; split; [exact Ltq|intros [H|[]]; exfalso; congruence]].
      cbn [shows]. rewrite andb_true_r. destruct (qbit false n i tq); reflexivity.
    + destruct S2 as [_ -> ->|ts2 Z2 _ P2' -> G2|mid2 st2 ts2 os2 _ Ek]; [| |discriminate Ek].
      2: { exfalso. apply Z2. exists b. split; [now left|exact Hb1]. }
      split; [intros x; now rewrite B4, B1|]. split; [now rewrite Q4, Q1|].
      intros i Hi. rewrite (Hw4 i Hi), (Hv4 i Hi), (Hw1 i Hi), (Hv1 i Hi), Pr, (Hw3 i Hi). destruct (qbit false n i tq); reflexivity.
Qed.

Theorem remeasured_run l l' : remeasured false l l' -> fits l -> equiv l l'.
Proof.
  induction 1 as [|o l l' H IH|o p l Hi Hb|mid q t b m k l Hq Hk|mid mid1 mid2 qs1 qs2 bs1 bs2 k l Hl Hk|l l' H IH|l1 l2 l3 H1 IH1 H2 IH2]; intros Hf.
  - apply equiv_nil.
  - apply fits_cons in Hf. apply equiv_cons; try tauto.
  - apply reordered_run; auto. now apply re_swap.
  - now apply equiv_defer.
  - now apply equiv_merge.
  - apply equiv_sym. apply IH. now apply (remeasured_fits false l l' H).
  - apply equiv_trans with l2; [now apply IH1|]. apply IH2. now apply (remeasured_fits false l1 l2 H1).
Qed.
End Run.
End Defer.

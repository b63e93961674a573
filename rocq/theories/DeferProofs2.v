(** Measurements put later, split and merged: branches and programs. *)
From Coq Require Import List NArith Arith Bool Lia Reals Lra Permutation.
From Verif Require Import Py CRing Cplx KernelModel KernelSpec KernelProofs2 SimModel SimSpec SimReal SimProofs SimProofs2 SimProofs3 SimProofs4 MeasureSpec SimProofs7
  UnitarySpec CallSpec CallProofs CallProofs2 CallProofs3 SampleModel SampleSpec SampleProofs SampleProofs2 BranchSpec BranchProofs BranchProofs2 GateModel GateProofs2 RewriteSpec RewriteProofs
  RewriteProofs2 RewriteProofs4 OrderSpec OrderProofs OrderProofs2 OrderProofs3 DeferSpec DeferProofs.
Import ListNotations.
Local Open Scope R_scope.

Section Branches.
Variable c : scirc Ccring.
Hypothesis Hc : NoDup (sc_qubits Ccring c).
Notation n := (num_qubits Ccring c).
Notation br := (branch c).
Notation fits := (fun l => forall o, In o l -> fit c o).
Notation carries := (carries c).

Lemma carries_same l l' : (forall h bits v bits' w, br l h bits v bits' w -> br l' h bits v bits' w) -> carries l l'.
Proof. intros H bits v. exists (fun h => h). split; [intros h b w Hb; split; auto|auto]. Qed.

Lemma shows_app i ts1 : forall os1 ts2 os2, length os1 = length ts1 -> shows n i (ts1 ++ ts2) (os1 ++ os2) = shows n i ts1 os1 && shows n i ts2 os2.
Proof. induction ts1 as [|t ts1 IH]; intros [|o os1] ts2 os2 H; try discriminate H; [reflexivity|]. cbn. rewrite IH by (now injection H). apply andb_assoc. Qed.

Lemma wf_fits l : fits l -> forall o, In o l -> wf_op c o.
Proof. intros H o Ho. apply (H o Ho). Qed.

Lemma merge_branches mid mid1 mid2 qs1 qs2 bs1 bs2 k l : length bs1 = length qs1 -> (forall b, In b bs1 -> ~ In b k) -> fits (measures mid1 qs1 bs1 k :: measures mid2 qs2 bs2 k :: l) ->
  forall h bits v bits' w, br (measures mid1 qs1 bs1 k :: measures mid2 qs2 bs2 k :: l) h bits v bits' w <-> br (measures mid (qs1 ++ qs2) (bs1 ++ bs2) k :: l) h bits v bits' w.
Proof.
  intros Hl Hk Hf h bits v bits' w. pose proof Hf as Hf'. apply fits_cons in Hf. destruct Hf as (F1 & Hf2). pose proof (wf_fits _ Hf2) as Wl2. apply fits_cons in Hf2. destruct Hf2 as (F2 & Fl).
  pose proof (wf_fits _ Fl) as Wl.
  assert (F : fit c (measures mid (qs1 ++ qs2) (bs1 ++ bs2) k)) by (apply fit_measures; apply fit_measures in F1, F2; now apply incl_app).
  destruct (zero_dec bits k) as [Z|Z].
  { split; intros H.
    - apply blocked_branch in H; [|exact Z]. apply blocked_branch in H; [|exact Z]. now apply branch_blocked.
    - apply blocked_branch in H; [|exact Z]. apply branch_blocked; [exact Z|]. now apply branch_blocked. }
  destruct (placed_wf Ccring c _ (proj1 F1)) as (ts1 & _ & P1 & _). destruct (placed_wf Ccring c _ (proj1 F2)) as (ts2 & _ & P2 & _).
  pose proof (placed_join c mid mid1 mid2 qs1 qs2 bs1 bs2 k ts1 ts2 P1 P2) as P. pose proof (placed_length c _ _ _ _ _ P1) as L1.
  assert (Kept : forall os1 os2 i, length os1 = length ts1 -> kept c (ts1 ++ ts2) (os1 ++ os2) v i = kept c ts2 os2 (kept c ts1 os1 v) i).
  { intros os1 os2 i H. unfold kept. rewrite shows_app by exact H. destruct (shows n i ts1 os1), (shows n i ts2 os2); reflexivity. }
  assert (Zr : forall os, ~ some_zero (recorded (Some bs1) os bits) k) by (intros os Z'; apply Z; exact (proj1 (DeferProofs.zero_recorded (Some bs1) os bits k Hk) Z')).
  split; intros H.
  - destruct (measure_branch c Hc _ _ mid1 (Some bs1) ts1 h bits v bits' w (proj1 F1) Wl2 Z eq_refl P1 H) as (os1 & h1 & -> & H1 & B1).
    destruct (measure_branch c Hc _ _ mid2 (Some bs2) ts2 h1 _ _ bits' w (proj1 F2) Wl (Zr os1) eq_refl P2 B1) as (os2 & h2 & -> & H2 & B2).
    rewrite app_assoc. apply (branch_measured c _ _ mid (Some (bs1 ++ bs2)) (ts1 ++ ts2)); [exact Z|reflexivity|exact P|now rewrite !app_length, H1, H2|].
    rewrite recorded_app by congruence. apply (branch_ext c Hc l h2 _ _ bits' w B2); [exact Wl|]. intros i _. now apply Kept.
  - destruct (measure_branch c Hc _ _ mid (Some (bs1 ++ bs2)) (ts1 ++ ts2) h bits v bits' w (proj1 F) Wl Z eq_refl P H) as (os & h' & -> & H1 & B).
    rewrite app_length in H1. set (os1 := firstn (length ts1) os). set (os2 := skipn (length ts1) os).
    assert (E : os = os1 ++ os2) by (symmetry; apply firstn_skipn). assert (E1 : length os1 = length ts1) by (apply firstn_length_le; lia). assert (E2 : length os2 = length ts2) by (unfold os2; rewrite skipn_length; lia).
    clearbody os1 os2. subst os. rewrite recorded_app in B by congruence. rewrite <- app_assoc.
    apply (branch_measured c _ _ mid1 (Some bs1) ts1); [exact Z|reflexivity|exact P1|exact E1|].
    apply (branch_measured c _ _ mid2 (Some bs2) ts2); [apply Zr|reflexivity|exact P2|exact E2|].
    apply (branch_ext c Hc l h' _ _ bits' w B); [exact Wl|]. intros i _. symmetry. now apply Kept.
Qed.

Lemma defer_branches mid q t b m k l : q <> t -> ~ In b k -> fits (measures mid [q] [b] k :: acts m t (b :: k) :: l) ->
  forall h bits v bits' w, br (measures mid [q] [b] k :: acts m t (b :: k) :: l) h bits v bits' w <-> br (acts_if m q t k :: measures mid [q] [b] k :: l) h bits v bits' w.
Proof.
  intros Hq Hk Hf h bits v bits' w.
  pose proof (proj1 (remeasured_fits c false _ _ (rm_defer false mid q t b m k l Hq Hk)) Hf) as Hf'.
  pose proof (Hf _ (or_introl eq_refl)) as F1. pose proof (Hf _ (or_intror (or_introl eq_refl))) as F2. pose proof (Hf' _ (or_introl eq_refl)) as F3.
  assert (Wl : forall o, In o l -> wf_op c o) by (intros o Ho; apply (Hf o); cbn; auto).
  assert (Wal : forall o, In o (acts m t (b :: k) :: l) -> wf_op c o) by (intros o Ho; apply (Hf o); now right).
  assert (Wml : forall o, In o (measures mid [q] [b] k :: l) -> wf_op c o) by (intros o Ho; apply (Hf' o); now right).
  destruct (zero_dec bits k) as [Z|Z].
  { assert (Z' : some_zero bits (b :: k)) by (destruct Z as (x & Hx & Ex); exists x; split; [now right|exact Ex]). split; intros H.
    - apply blocked_branch in H; [|exact Z]. apply blocked_branch in H; [|exact Z']. do 2 (apply branch_blocked; [exact Z|]). exact H.
    - apply blocked_branch in H; [|exact Z]. apply blocked_branch in H; [|exact Z]. apply branch_blocked; [exact Z|]. now apply branch_blocked. }
  destruct (placed_wf Ccring c _ (proj1 F3)) as (ts & _ & P3 & _). pose proof P3 as (x & Ex & F). injection Ex as <-.
  inversion F as [|? tq ? ? A1 F']; subst. inversion F' as [|? tt ? ? A2 F'']; subst. inversion F''; subst. clear F F' F''.
  assert (P1 : placed c (measures mid [q] [b] k) [tq]) by (exists [q]; split; [reflexivity|repeat constructor; exact A1]).
  assert (P2 : placed c (acts m t (b :: k)) [tt]) by (exists [t]; split; [reflexivity|repeat constructor; exact A2]).
  assert (Hd : tq <> tt) by (intros ->; congruence).
  assert (Ltq : (tq < n)%N) by (exact (placed_below c _ _ P1 tq (or_introl eq_refl))).
  destruct (acts_good c Hc m t (b :: k) tt F2 P2) as (G & K).
  assert (Zb : forall o, some_zero (recorded (Some [b]) [o] bits) (b :: k) <-> o = false).
  { intros o. split.
    - intros (x & [<-|Hx] & E); [cbn in E; rewrite Nat.eqb_refl in E; congruence|]. exfalso. apply Z. exists x. split; [exact Hx|]. rewrite <- E. symmetry. apply recorded_other. intros [<-|[]]. contradiction.
    - intros ->. exists b. split; [now left|]. cbn. now rewrite Nat.eqb_refl. }
  assert (On : forall i, (i < 2 ^ n)%N -> @gate_action Ccring false n (KOther Ccring 1 m) [tt] (kept c [tq] [true] v) i =
    kept c [tq] [true] (@gate_action Ccring false n (KControlled Ccring 1 2 m) [tq; tt] v) i).
  { intros i Hi. rewrite (kept_gate c (KOther Ccring 1 m) [tt] [tq] [true] v i K G); [|intros x [<-|[]]; split; [exact Ltq|intros [E|[]]; exfalso; congruence]|exact Hi].
    unfold kept. cbn [shows]. rewrite andb_true_r, acts_if_action. destruct (qbit false n i tq); reflexivity. }
  assert (Off : forall i, kept c [tq] [false] v i = kept c [tq] [false] (@gate_action Ccring false n (KControlled Ccring 1 2 m) [tq; tt] v) i).
  { intros i. unfold kept. cbn [shows]. rewrite andb_true_r, acts_if_action. destruct (qbit false n i tq); reflexivity. }
  split; intros H.
  - destruct (measure_branch c Hc _ _ mid (Some [b]) [tq] h bits v bits' w (proj1 F1) Wal Z eq_refl P1 H) as (os & h1 & -> & H1 & B1).
    destruct os as [|o [|? ?]]; try discriminate H1.
    apply (branch_gated c _ _ [tq; tt]); [exact Z|reflexivity|exact P3|]. apply (branch_measured c _ _ mid (Some [b]) [tq]); [exact Z|reflexivity|exact P1|exact H1|]. destruct o.
    + apply (gate_branch c Hc _ _ [tt]) in B1; [|exact (proj1 F2)|exact Wl|intros Z'; apply Zb in Z'; discriminate Z'|reflexivity|exact P2].
      apply (branch_ext c Hc l h1 _ _ bits' w B1); [exact Wl|]. intros i Hi. symmetry. now apply On.
    + apply blocked_branch in B1; [|now apply Zb]. apply (branch_ext c Hc l h1 _ _ bits' w B1); [exact Wl|]. intros i _. symmetry. apply Off.
  - apply (gate_branch c Hc _ _ [tq; tt]) in H; [|exact (proj1 F3)|exact Wml|exact Z|reflexivity|exact P3].
    destruct (measure_branch c Hc _ _ mid (Some [b]) [tq] h bits _ bits' w (proj1 F1) Wl Z eq_refl P1 H) as (os & h1 & -> & H1 & B1).
    destruct os as [|o [|? ?]]; try discriminate H1.
    apply (branch_measured c _ _ mid (Some [b]) [tq]); [exact Z|reflexivity|exact P1|exact H1|]. destruct o.
    + apply (branch_gated c _ _ [tt]); [intros Z'; apply Zb in Z'; discriminate Z'|reflexivity|exact P2|].
      apply (branch_ext c Hc l h1 _ _ bits' w B1); [exact Wl|]. exact On.
    + apply branch_blocked; [now apply Zb|]. apply (branch_ext c Hc l h1 _ _ bits' w B1); [exact Wl|]. intros i _. apply Off.
Qed.

Lemma remeasured_carries both l l' : remeasured both l l' -> fits l -> carries l l' /\ carries l' l.
Proof.
  induction 1 as [|o l l' H IH|o p l Hi Hb|mid q t b m k l Hq Hk|mid mid1 mid2 qs1 qs2 bs1 bs2 k l Hl Hk|l l' H IH|l1 l2 l3 H1 IH1 H2 IH2]; intros Hf.
  - split; apply carries_nil.
  - apply fits_cons in Hf. destruct Hf as (Fo & Fl). destruct (IH Fl). pose proof (proj1 (remeasured_fits c both l l' H) Fl) as Fl'.
    split; (apply carries_cons; [exact Hc|exact (proj1 Fo)|now apply wf_fits|assumption]).
  - apply fits_cons in Hf. destruct Hf as (Fo & Hf). apply fits_cons in Hf. destruct Hf as (Fp & Fl). pose proof (wf_fits _ Fl) as Wl.
    split; (apply carries_swap; [exact Hc|apply Fo || apply Fp|apply Fp || apply Fo|exact Wl|auto using independent_sym]).
  - split; apply carries_same; intros; now apply (defer_branches mid q t b m k l Hq Hk Hf).
  - split; apply carries_same; intros; now apply (merge_branches mid mid1 mid2 qs1 qs2 bs1 bs2 k l Hl Hk Hf).
  - destruct (IH (proj2 (remeasured_fits c both l l' H) Hf)). auto.
  - destruct (IH1 Hf). destruct (IH2 (proj1 (remeasured_fits c both l1 l2 H1) Hf)). split; eapply carries_trans; eauto.
Qed.
End Branches.

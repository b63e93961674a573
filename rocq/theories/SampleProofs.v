(** Proofs about joint outcomes of measurements and samples. *)
From Coq Require Import List NArith Arith Bool Lia Reals Lra Permutation.
From Verif Require Import Py CRing Cplx KernelModel KernelSpec SimModel SimSpec SimReal SimProofs SimProofs2 SimProofs3
  SimProofs7 MeasureSpec SampleSpec.
Import ListNotations.
Local Open Scope R_scope.

(** ** Sums over filtered lists *)
Lemma Rsum_if {I} (l : list I) (p : I -> bool) f :
  Rsum (filter p l) f = Rsum l (fun i => if p i then f i else 0).
Proof.
  induction l as [|i l IH]; cbn [filter]; [reflexivity|]. destruct (p i) eqn:E.
  - change (f i + Rsum (filter p l) f = (if p i then f i else 0) + Rsum l (fun i => if p i then f i else 0)).
    now rewrite E, IH.
  - change (Rsum (filter p l) f = (if p i then f i else 0) + Rsum l (fun i => if p i then f i else 0)).
    rewrite E, IH. ring.
Qed.

Lemma joint_if n ts os v :
  joint n ts os v = Rsum (Nrange (2 ^ n)) (fun i => if shows n i ts os then Cnorm2 (v i) else 0).
Proof. apply Rsum_if. Qed.

Lemma prob_if n t o v :
  prob false n t o v = Rsum (Nrange (2 ^ n)) (fun i => if Bool.eqb (qbit false n i t) o then Cnorm2 (v i) else 0).
Proof. apply Rsum_if. Qed.

Lemma joint_nonneg n ts os v : 0 <= joint n ts os v.
Proof. apply Rsum_nonneg. intros. apply Cnorm2_pos. Qed.

Lemma joint_nil n v : joint n [] [] v = Rsum (Nrange (2 ^ n)) (fun i => Cnorm2 (v i)).
Proof. rewrite joint_if. reflexivity. Qed.

Lemma joint_one n t o v : joint n [t] [o] v = prob false n t o v.
Proof. rewrite joint_if, prob_if. apply Rsum_ext. intros i _. cbn [shows]. now rewrite andb_true_r. Qed.

Lemma joint_le n t ts o os v : joint n (t :: ts) (o :: os) v <= prob false n t o v.
Proof.
  rewrite joint_if, prob_if.
  assert (H : forall l, Rsum l (fun i => if shows n i (t :: ts) (o :: os) then Cnorm2 (v i) else 0) <=
                        Rsum l (fun i => if Bool.eqb (qbit false n i t) o then Cnorm2 (v i) else 0)).
  { induction l as [|i l IH]; [cbn; lra|]. unfold Rsum in *. cbn [fold_right]. cbn [shows] in *.
    pose proof (Cnorm2_pos (v i)).
    destruct (Bool.eqb (qbit false n i t) o); cbn [andb]; [destruct (shows n i ts os); lra|lra]. }
  apply H.
Qed.

(** The state after an outcome *)
Lemma Cnorm2_scale r z : Cnorm2 (Cmul (RtoC r) z) = r * r * Cnorm2 z.
Proof. unfold Cnorm2, Cmul, RtoC, Re, Im. cbn. ring. Qed.

Lemma inv_sqrt_sq p : 0 < p -> 1 / sqrt p * (1 / sqrt p) = / p.
Proof.
  intros H. pose proof (sqrt_lt_R0 p H). pose proof (sqrt_sqrt p (Rlt_le _ _ H)) as E.
  rewrite <- E at 3. field. lra.
Qed.

Definition after (n t : N) (o : bool) (v v' : N -> C) : Prop :=
  forall i, (i < 2 ^ n)%N ->
    v' i = if Bool.eqb (qbit false n i t) o then Cmul (RtoC (1 / sqrt (prob false n t o v))) (v i) else C0.

Lemma in_Nrange i m : In i (Nrange m) -> (i < m)%N.
Proof. unfold Nrange. rewrite in_map_iff. intros (k & <- & H). apply in_seq in H. lia. Qed.

Lemma joint_after n t ts o os v v' : 0 < prob false n t o v -> after n t o v v' ->
  joint n (t :: ts) (o :: os) v = prob false n t o v * joint n ts os v'.
Proof.
  intros Hp Ha. rewrite !joint_if, <- Rsum_scale. apply Rsum_ext. intros i Hi. apply in_Nrange in Hi.
  rewrite (Ha i Hi). cbn [shows]. destruct (Bool.eqb (qbit false n i t) o) eqn:E; cbn [andb].
  - destruct (shows n i ts os); [|ring]. rewrite Cnorm2_scale, (inv_sqrt_sq _ Hp). field. lra.
  - destruct (shows n i ts os); [|ring]. replace (Cnorm2 C0) with 0; [ring|]. unfold Cnorm2, C0. cbn. ring.
Qed.

Lemma after_normalised n t o v v' : 0 < prob false n t o v -> after n t o v v' -> normalised n v'.
Proof.
  intros Hp Ha. unfold normalised. rewrite <- joint_nil.
  apply (Rmult_eq_reg_l (prob false n t o v)); [|lra].
  rewrite <- (joint_after n t [] o [] v v' Hp Ha), joint_one. ring.
Qed.

Lemma prob_sum n t v : normalised n v -> prob false n t false v + prob false n t true v = 1.
Proof. intros H. rewrite prob_split. exact H. Qed.

Lemma prob_pos n t o v : 0 <= prob false n t o v.
Proof. rewrite <- joint_one. apply joint_nonneg. Qed.

(** There is a state after every possible outcome. *)
Definition projected (n t : N) (o : bool) (v : N -> C) : N -> C :=
  fun i => if Bool.eqb (qbit false n i t) o then Cmul (RtoC (1 / sqrt (prob false n t o v))) (v i) else C0.
Lemma projected_after n t o v : after n t o v (projected n t o v).
Proof. intros i _. reflexivity. Qed.

(** Only the amplitudes inside the state matter. *)
Lemma prob_ext n t o v w : (forall i, (i < 2 ^ n)%N -> v i = w i) -> prob false n t o v = prob false n t o w.
Proof.
  intros H. rewrite !prob_if. apply Rsum_ext. intros i Hi. now rewrite (H i (in_Nrange _ _ Hi)).
Qed.

Lemma collapses_ext n ts us os v w x : collapses n ts us os v w -> (forall i, (i < 2 ^ n)%N -> v i = x i) ->
  collapses n ts us os x w.
Proof.
  intros H Hx. destruct H as [v w H|t ts u us o os v v' w Ho Hp Hv H].
  - constructor. intros i Hi. now rewrite (H i Hi), (Hx i Hi).
  - apply collapses_cons with (v' := v').
    + now rewrite <- (prob_ext n t false v x Hx).
    + now rewrite <- (prob_ext n t o v x Hx).
    + intros i Hi. rewrite <- (prob_ext n t o v x Hx), <- (Hx i Hi). now apply Hv.
    + exact H.
Qed.

(** ** The random numbers that lead to given outcomes form a box whose volume is their joint probability *)
Definition half (p : R) (o : bool) : R * R := if o then (p, 1) else (0, p).

Lemma half_choice p o u : 0 <= p <= 1 -> uniform u ->
  ((o = false <-> u < p) <-> fst (half p o) <= u < snd (half p o)).
Proof.
  intros Hp Hu. unfold uniform in Hu. destruct o; cbn [half fst snd].
  - split.
    + intros H. split; [|lra]. destruct (Rlt_le_dec u p) as [Hl|Hl]; [apply H in Hl; discriminate|exact Hl].
    + intros H. split; [discriminate|]. intros. lra.
  - split.
    + intros [H _]. specialize (H eq_refl). lra.
    + intros H. split; [intros _; lra|reflexivity].
Qed.

Lemma collapses_box n ts : forall os v, normalised n v -> length os = length ts ->
  exists b, length b = length ts /\ in_unit b /\ volume b = joint n ts os v /\
    forall us, Forall uniform us -> length us = length ts ->
      ((exists w, collapses n ts us os v w) <-> inside us b).
Proof.
  induction ts as [|t ts IH]; intros os v Hv Hl.
  - destruct os; [|discriminate]. exists []. split; [reflexivity|]. split; [constructor|].
    split; [rewrite joint_nil; exact (eq_sym Hv)|]. intros us _ Hus. destruct us; [|discriminate].
    split; [intros _; constructor|]. intros _. exists v. now constructor.
  - destruct os as [|o os]; [discriminate|]. injection Hl as Hl.
    pose proof (prob_sum n t v Hv) as Hs. pose proof (prob_pos n t false v) as H0. pose proof (prob_pos n t true v) as H1.
    set (p := prob false n t false v) in *.
    assert (Ew : snd (half p o) - fst (half p o) = prob false n t o v) by (destruct o; cbn [half fst snd]; fold p; lra).
    assert (Hh : 0 <= fst (half p o) <= snd (half p o) /\ snd (half p o) <= 1) by (destruct o; cbn [half fst snd]; lra).
    assert (H01 : 0 <= p <= 1) by lra.
    destruct (Rle_lt_or_eq_dec _ _ (prob_pos n t o v)) as [Hp|Hp].
    + pose proof (projected_after n t o v) as Ha. pose proof (after_normalised n t o v _ Hp Ha) as Hv'.
      destruct (IH os _ Hv' Hl) as (b & Lb & Ub & Vb & Hb).
      exists (half p o :: b). split; [cbn; lia|]. split; [constructor; assumption|].
      split; [|].
      { change (volume (half p o :: b)) with ((snd (half p o) - fst (half p o)) * volume b).
        rewrite Ew, Vb. symmetry. now apply joint_after. }
      intros us Hus Lus. destruct us as [|u us]; [discriminate|]. injection Lus as Lus.
      pose proof (Forall_inv Hus) as Hu. apply Forall_inv_tail in Hus. specialize (Hb us Hus Lus).
      split.
      * intros (w & Hc). inversion Hc as [|? ? ? ? ? ? ? v' ? Ho Hpo Hvv Hcc]; subst.
        constructor; [apply half_choice; [exact H01|assumption|exact Ho]|].
        apply Hb. exists w. eapply collapses_ext; [exact Hcc|]. intros i Hi. now rewrite (Hvv i Hi).
      * intros Hi. inversion Hi as [|? ? ? ? Hc Hr]; subst. apply Hb in Hr. destruct Hr as (w & Hw).
        exists w. apply collapses_cons with (v' := projected n t o v); [|exact Hp|exact Ha|exact Hw].
        apply half_choice; [exact H01|assumption|exact Hc].
    + exists (half p o :: map (fun _ => (0, 0)) ts). split; [cbn; now rewrite map_length|].
      split.
      { constructor; [exact Hh|]. apply Forall_forall. intros x Hx. apply in_map_iff in Hx. destruct Hx as (? & <- & _).
        cbn. lra. }
      split.
      { change (volume (half p o :: map (fun _ => (0, 0)) ts))
          with ((snd (half p o) - fst (half p o)) * volume (map (fun _ => (0, 0)) ts)).
        rewrite Ew, <- Hp. pose proof (joint_le n t ts o os v). pose proof (joint_nonneg n (t :: ts) (o :: os) v). lra. }
      intros us Hus Lus. split.
      * intros (w & Hc). inversion Hc as [|? ? ? ? ? ? ? v' ? Ho Hpo Hvv Hcc]; subst. lra.
      * intros Hi. inversion Hi as [|? ? ? ? Hc Hr]; subst. lra.
Qed.

(** ** Outcomes are determined by the random numbers, have the right probability and leave the projected state *)
Lemma collapses_fun n ts us os v w : collapses n ts us os v w ->
  forall os' x w', collapses n ts us os' x w' -> (forall i, (i < 2 ^ n)%N -> v i = x i) ->
  os = os' /\ forall i, (i < 2 ^ n)%N -> w i = w' i.
Proof.
  induction 1 as [v w H|t ts u us o os v v' w Ho Hp Hv H IH]; intros os' x w' H' Hx.
  - inversion H' as [? ? E|]; subst. split; [reflexivity|]. intros i Hi. now rewrite (H i Hi), (E i Hi), (Hx i Hi).
  - inversion H' as [|? ? ? ? o' os1 ? x' ? Ho' Hp' Hv' Hc']; subst.
    assert (o = o').
    { rewrite (prob_ext n t false v x Hx) in Ho. destruct o, o'; try reflexivity; [apply Ho, Ho'|symmetry; apply Ho', Ho];
        reflexivity. }
    subst o'. destruct (IH os1 x' w' Hc') as [-> Hw].
    { intros i Hi. rewrite (Hv i Hi), (Hv' i Hi), (prob_ext n t o v x Hx), (Hx i Hi). reflexivity. }
    now split.
Qed.

Lemma collapses_length n ts us os v w : collapses n ts us os v w -> length os = length ts /\ length us = length ts.
Proof. induction 1; cbn [length]; [auto|]. lia. Qed.

Lemma joint_cons_zero n t ts o os v : prob false n t o v = 0 -> joint n (t :: ts) (o :: os) v = 0.
Proof. intros H. pose proof (joint_le n t ts o os v). pose proof (joint_nonneg n (t :: ts) (o :: os) v). lra. Qed.

Lemma collapses_joint n ts us os v w : collapses n ts us os v w -> normalised n v ->
  0 < joint n ts os v /\
  forall i, (i < 2 ^ n)%N -> w i = if shows n i ts os then Cmul (RtoC (1 / sqrt (joint n ts os v))) (v i) else C0.
Proof.
  induction 1 as [v w H|t ts u us o os v v' w Ho Hp Hv H IH]; intros Hn.
  - assert (E : joint n [] [] v = 1) by (rewrite joint_nil; exact Hn). rewrite !E. split; [lra|].
    intros i Hi. cbn [shows]. rewrite (H i Hi), sqrt_1.
    apply C_eq; unfold Cmul, RtoC, Re, Im; cbn; field.
  - pose proof (after_normalised n t o v v' Hp Hv) as Hn'. destruct (IH Hn') as [Hj Hw].
    rewrite (joint_after n t ts o os v v' Hp Hv). split; [now apply Rmult_lt_0_compat|].
    intros i Hi. rewrite (Hw i Hi), (Hv i Hi). cbn [shows]. destruct (Bool.eqb (qbit false n i t) o); cbn [andb].
    + destruct (shows n i ts os); [|reflexivity].
      rewrite sqrt_mult by lra. pose proof (sqrt_lt_R0 _ Hp). pose proof (sqrt_lt_R0 _ Hj).
      apply C_eq; unfold Cmul, RtoC, Re, Im; cbn; field; split; lra.
    + destruct (shows n i ts os); [|reflexivity]. apply C_eq; unfold Cmul, RtoC, C0, Re, Im; cbn; ring.
Qed.

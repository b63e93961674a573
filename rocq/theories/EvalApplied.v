(** Proof that [applied] follows [applies]: which operations a simulation applies. *)
From Coq Require Import List Bool Arith Lia.
From Verif Require Import Py RegisterModel RegisterProofs WorldModel EvalModel EvalSpec EvalProofs.
Import ListNotations.

Section Proofs.
Variable P : Type.
Notation world := (world P).
Notation opobj := (opobj P).
Variable w : world.
Variable out : nat -> nat -> bool.

Definition owned (z : copied P) : opobj * owner := (cp_op P z, cp_bits P z).
Definition measures (x : opobj) : Prop := exists k, nth_error (w_cls w) (o_cls x) = Some k /\ k_kind k = KMeas.

Lemma measures_spec z : is_measurement P w z = true <-> measures (cp_op P z).
Proof.
  unfold is_measurement, measures. destruct (nth_error _ _) as [k|].
  - split.
    + intros H. exists k. split; [reflexivity|]. destruct (k_kind k); congruence.
    + intros [k' [E H]]. injection E as <-. rewrite H. reflexivity.
  - split; [discriminate|]. intros [k [E _]]. discriminate.
Qed.

Lemma owner_eqb_spec a b : reflect (a = b) (owner_eqb a b).
Proof.
  destruct a as [|i], b as [|j]; cbn; try (constructor; congruence). destruct (Nat.eqb_spec i j); constructor; congruence.
Qed.

(** The last of the outcomes that go to a bit is the one it keeps. *)
Lemma put_all_last a bs : forall f xs j b x,
  nth_error bs j = Some b -> nth_error xs j = Some x ->
  (forall j', j < j' -> j' < List.length xs -> nth_error bs j' <> Some b) -> put_all f a bs xs a b = Some x.
Proof.
  induction bs as [|b0 bs IH]; intros f xs j b x Hb Hx Hl; [destruct j; discriminate|].
  destruct xs as [|x0 xs]; [destruct j; discriminate|]. cbn. destruct j as [|j].
  - cbn in Hb, Hx. injection Hb as ->. injection Hx as ->.
    assert (Hn : forall j, j < List.length xs -> nth_error bs j <> Some b).
    { intros j Hj. apply (Hl (S j)); cbn; lia. }
    clear IH Hl. assert (G : put_value f a b x a b = Some x).
    { unfold put_value. destruct (owner_eqb_spec a a); [|congruence]. now rewrite item_eqb_refl. }
    revert G Hn. generalize (put_value f a b x). clear f. revert xs. induction bs as [|b1 bs IH]; intros xs f G Hn; [exact G|].
    destruct xs as [|x1 xs]; [exact G|]. cbn. apply IH.
    + unfold put_value. destruct (owner_eqb_spec a a); [|congruence].
      rewrite item_eqb_neq; [exact G|]. intros <-. apply (Hn 0); cbn; [lia|reflexivity].
    + intros j Hj. apply (Hn (S j)). cbn. lia.
  - apply (IH _ _ j); [exact Hb|exact Hx|]. intros j' H1 H2. apply (Hl (S j')); cbn; lia.
Qed.

Lemma put_all_none a bs : forall f xs a' b,
  a' <> a \/ (forall j, j < List.length xs -> nth_error bs j <> Some b) -> put_all f a bs xs a' b = f a' b.
Proof.
  induction bs as [|b0 bs IH]; intros f xs a' b H; [reflexivity|]. destruct xs as [|x xs]; [reflexivity|]. cbn. rewrite IH.
  - unfold put_value. destruct (owner_eqb_spec a' a) as [->|Ha]; [|reflexivity].
    destruct H as [H|H]; [congruence|]. rewrite item_eqb_neq; [reflexivity|]. intros ->. apply (H 0); cbn; [lia|reflexivity].
  - destruct H as [H|H]; [now left|right]. intros j Hj. apply (H (S j)). cbn. lia.
Qed.

(** A search for the last outcome that goes to [b] *)
Lemma last_goes x b : (exists j, goes P x j b /\ forall j', j < j' -> ~ goes P x j' b) \/ forall j, ~ goes P x j b.
Proof.
  destruct (o_qubits x) as [qs|] eqn:Eq; [|right; intros j (q & bs & H & _); congruence].
  destruct (o_bits x) as [bs|] eqn:Eb; [|right; intros j (q & bs & _ & H & _); congruence].
  assert (G : forall n, (exists j, goes P x j b /\ forall j', j < j' -> j' < n -> ~ goes P x j' b) \/ forall j, j < n -> ~ goes P x j b).
  { induction n as [|n IH]; [right; intros j; lia|].
    assert (D : goes P x n b \/ ~ goes P x n b).
    { unfold goes. rewrite Eq, Eb. destruct (Nat.ltb_spec n (List.length qs)) as [Hn|Hn].
      - destruct (nth_error bs n) as [b'|] eqn:En.
        + destruct (item_eqb_spec b' b) as [->|Hb].
          * left. now exists qs, bs.
          * right. intros (q & bs' & E1 & E2 & _ & E3). congruence.
        + right. intros (q & bs' & E1 & E2 & _ & E3). congruence.
      - right. intros (q & bs' & E1 & E2 & E4 & E3). injection E1 as <-. lia. }
    destruct D as [D|D].
    - left. exists n. split; [exact D|]. intros; lia.
    - destruct IH as [(j & Hj & Hl)|IH].
      + left. exists j. split; [exact Hj|]. intros j' H1 H2. destruct (Nat.eq_dec j' n) as [->|]; [exact D|]. apply Hl; lia.
      + right. intros j Hj. destruct (Nat.eq_dec j n) as [->|]; [exact D|]. apply IH. lia. }
  assert (B : forall j, goes P x j b -> j < List.length qs).
  { intros j (q & bs' & E1 & _ & H & _). congruence. }
  destruct (G (List.length qs)) as [(j & Hj & Hl)|H].
  - left. exists j. split; [exact Hj|]. intros j' H1 H2. exact (Hl j' H1 (B _ H2) H2).
  - right. intros j Hj. exact (H j (B _ Hj) Hj).
Qed.

Lemma goes_unique x j j' b : goes P x j b -> (forall k, j < k -> ~ goes P x k b) ->
  goes P x j' b -> (forall k, j' < k -> ~ goes P x k b) -> j = j'.
Proof.
  intros H1 L1 H2 L2. destruct (lt_eq_lt_dec j j') as [[H|H]|H]; [|exact H|].
  - destruct (L1 _ H H2).
  - destruct (L2 _ H H1).
Qed.

Section Run.
Variable init : owner -> item -> option bool.
Variable zs : list (copied P).
Variable l : list bool.
Notation holds := (holds P owner (map owned zs) measures out init l).
Notation writes := (writes P owner (map owned zs) measures l).

Lemma writes_unique i j j' a b : writes i j a b -> writes i j' a b -> j = j'.
Proof.
  intros (x & E & _ & _ & G & L) (x' & E' & _ & _ & G' & L'). assert (x' = x) as -> by congruence.
  now apply (goes_unique x j j' b).
Qed.

Lemma holds_unique i a b v : holds i a b v -> forall v', holds i a b v' -> v = v'.
Proof.
  induction 1 as [a b|i j a b H|i a b v H IH Hn]; intros v' H'; inversion H'; subst; auto.
  - f_equal. f_equal. match goal with W : writes _ _ _ _, W' : writes _ ?j' _ _ |- _ = ?j' => eapply writes_unique; eassumption end.
  - exfalso. match goal with N : forall j, ~ writes _ j _ _ |- _ => eapply N; eassumption end.
  - exfalso. eapply Hn; eassumption.
Qed.

Definition after (f : values) (i : nat) (z : copied P) : values :=
  if is_measurement P w z
  then put_all f (cp_bits P z) (match o_bits (cp_op P z) with Some l => l | None => [] end) (measured P (out i) (cp_op P z))
  else f.

Lemma measured_length g x : List.length (measured P g x) = List.length (match o_qubits x with Some l => l | None => [] end).
Proof. unfold measured. now rewrite map_length, seq_length. Qed.
Lemma measured_nth g x j : j < List.length (match o_qubits x with Some l => l | None => [] end) -> nth_error (measured P g x) j = Some (g j).
Proof.
  intros H. unfold measured. rewrite nth_error_map, nth_error_nth' with (d := 0) by now rewrite seq_length.
  cbn. now rewrite seq_nth.
Qed.

Lemma step_holds f i z r : nth_error zs i = Some z -> nth_error l i = Some r ->
  (forall a b, holds i a b (f a b)) -> forall a b, holds (S i) a b ((if r then after f i z else f) a b).
Proof.
  intros Ez Er Hf a b. assert (Eo : nth_error (map owned zs) i = Some (owned z)) by now rewrite nth_error_map, Ez.
  destruct r.
  - unfold after. destruct (is_measurement P w z) eqn:Em.
    + destruct (last_goes (cp_op P z) b) as [(j & Hj & Hl)|Hn].
      * destruct (owner_eqb_spec a (cp_bits P z)) as [->|Ha].
        -- assert (W : writes i j (cp_bits P z) b).
           { exists (cp_op P z). repeat split; try assumption. now apply measures_spec. }
           destruct Hj as (qs & bs & Eq & Eb & Hlt & Hb).
           rewrite put_all_last with (j := j) (x := out i j).
           ++ now apply holds_written.
           ++ now rewrite Eb.
           ++ apply measured_nth. now rewrite Eq.
           ++ intros j' H1 H2 H3. rewrite measured_length, Eq in H2. rewrite Eb in H3. apply (Hl j' H1). now exists qs, bs.
        -- rewrite put_all_none by now left. apply holds_kept; [apply Hf|].
           intros j' (x & E & _). rewrite Eo in E. unfold owned in E. congruence.
      * rewrite put_all_none.
        -- apply holds_kept; [apply Hf|]. intros j' (x & E & _ & _ & G & _). rewrite Eo in E.
           injection E as <- _. exact (Hn _ G).
        -- right. intros j Hj E. rewrite measured_length in Hj. apply (Hn j). unfold goes.
           destruct (o_qubits (cp_op P z)) as [qs|]; [|cbn in Hj; lia].
           destruct (o_bits (cp_op P z)) as [bs|]; [|destruct j; discriminate]. now exists qs, bs.
    + apply holds_kept; [apply Hf|]. intros j' (x & E & _ & M & _). rewrite Eo in E. injection E as <- _.
      apply measures_spec in M. congruence.
  - apply holds_kept; [apply Hf|]. intros j' (x & _ & E & _). congruence.
Qed.

Lemma applied_step i f z zs' : applied P w out i f (z :: zs') =
  unblocked P f z :: applied P w out (S i) (if unblocked P f z then after f i z else f) zs'.
Proof. cbn. unfold after. now destruct (unblocked P f z). Qed.

Lemma run_holds rest : forall i f, skipn i zs = rest -> skipn i l = applied P w out i f rest ->
  (forall a b, holds i a b (f a b)) ->
  forall n z, nth_error rest n = Some z -> exists g, (forall a b, holds (i + n) a b (g a b)) /\ nth_error l (i + n) = Some (unblocked P g z).
Proof.
  induction rest as [|z0 rest IH]; intros i f Ez El Hf n z Hn; [destruct n; discriminate|].
  rewrite applied_step in El.
  assert (S1 : forall (T : Type) (m : list T) x y k, skipn k m = x :: y -> nth_error m k = Some x /\ skipn (S k) m = y).
  { clear. intros T m x y k. revert m. induction k as [|k IH]; intros m H.
    - cbn in H. subst m. now split.
    - destruct m as [|m0 m]; [discriminate|]. cbn in H. apply IH in H. exact H. }
  destruct (S1 _ _ _ _ _ Ez) as [Hz Ez']. destruct (S1 _ _ _ _ _ El) as [Hl El'].
  destruct n as [|n].
  - cbn in Hn. injection Hn as <-. rewrite Nat.add_0_r. now exists f.
  - cbn in Hn. rewrite <- Nat.add_succ_comm. apply (IH (S i) _ Ez' El'); [|exact Hn].
    apply (step_holds f i z0); assumption.
Qed.
End Run.

Theorem eval_applied init zs : applies P owner (map owned zs) measures out init (applied P w out 0 init zs).
Proof.
  split.
  - rewrite map_length. generalize 0, init. induction zs as [|z zs' IH]; intros i f; [reflexivity|].
    rewrite applied_step. cbn. now rewrite IH.
  - intros i x a E. rewrite nth_error_map in E. destruct (nth_error zs i) as [z|] eqn:Ez; [|discriminate].
    cbn in E. injection E as <- <-.
    destruct (run_holds init zs (applied P w out 0 init zs) zs 0 init eq_refl eq_refl (fun a b => holds_first _ _ _ _ _ _ _ a b) i z Ez)
      as (g & Hg & El). cbn in Hg, El. rewrite El. split.
    + intros Hu bs b Eb Hb Hh. injection Hu as Hu. unfold unblocked in Hu. rewrite Eb, forallb_forall in Hu. specialize (Hu b Hb).
      rewrite (holds_unique _ _ _ _ _ _ _ (Hg _ _) _ Hh) in Hu. discriminate.
    + intros Hu. f_equal. unfold unblocked. apply forallb_forall. intros b Hb.
      destruct (o_cond (cp_op P z)) as [bs|] eqn:Eb; [|destruct Hb]. specialize (Hu bs b eq_refl Hb).
      destruct (g (cp_bits P z) b) as [[|]|] eqn:Eg; try reflexivity. destruct Hu. rewrite <- Eg. apply Hg.
Qed.
End Proofs.

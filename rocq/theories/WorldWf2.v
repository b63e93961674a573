(** References stay valid, objects keep their class, and the active context is left alone, in every
    execution. *)
From Coq Require Import List ZArith String Bool Arith Lia.
From Verif Require Import Py RegisterModel WorldModel WorldSpec WorldInv WorldInv2 WorldInv5 WorldWf.
Import ListNotations.
Local Open Scope nat_scope.

Section Wf2.
Variable P : Type.
Variable ptrue : P -> bool.
Variable peqb : P -> P -> bool.
Notation world := (world P).
Notation M := (M P).
Notation inv := (inv P).

(** ** Programs *)
Section Run.
Variable I : world -> Prop.
Variable ok : world -> call P -> Prop.
Hypothesis K_call : forall w x, ok w x -> I w -> I (fst (do_call ptrue peqb x w)).
Hypothesis K_context : forall c, inv I (@context P c).
Hypothesis K_enter : forall a, inv I (@ctx_enter P a).
Hypothesis K_exit : forall a, inv I (@ctx_exit P a).
Hypothesis K_frozen : forall b e, inv I (@set_frozen P b e).

Lemma run_inv p : forall w, executes P ptrue peqb ok p w -> I w -> I (fst (run ptrue peqb p w)).
Proof.
  induction p; simpl; intros w He Hi.
  - exact Hi.
  - auto.
  - destruct He as [H1 H2]. unfold mbind in *. specialize (IHp1 w H1 Hi).
    destruct (run ptrue peqb p1 w) as [w' [u|e]]; simpl in *; [|auto]. auto.
  - unfold mbind in *. pose proof (K_context c w Hi) as H1.
    destruct (context c w) as [w1 [a|e]]; simpl in *; [|auto].
    pose proof (K_enter a w1 H1) as H2.
    destruct (ctx_enter a w1) as [w2 [u|e]]; simpl in *; [|auto].
    rewrite fst_finally. apply K_exit. auto.
  - unfold mbind in *. pose proof (K_frozen true CircuitError w Hi) as H1.
    destruct (set_frozen true CircuitError w) as [w1 [a|e]]; simpl in *; [|auto].
    rewrite fst_finally. apply K_frozen. auto.
  - auto.
  - exact Hi.
Qed.

Lemma visits_inv p : forall w v, executes P ptrue peqb ok p w -> I w -> visits P ptrue peqb p w v -> I v.
Proof.
  assert (A : forall p w v, executes P ptrue peqb ok p w -> I w -> v = w \/ v = fst (run ptrue peqb p w) -> I v).
  { intros q w v He Hi [->| ->]; [exact Hi|now apply run_inv]. }
  induction p; intros w v He Hi Hv; pose proof (A _ w v He Hi) as A'; simpl in Hv, He.
  - tauto.
  - tauto.
  - destruct Hv as [E|[E|[H|H]]]; [auto|auto|eapply IHp1; [apply He|..]; eauto|].
    destruct He as [H1 H2]. pose proof (run_inv p1 w H1 Hi) as K.
    destruct (run ptrue peqb p1 w) as [w' [u|e]]; [|easy]. simpl in K. eapply IHp2; eauto.
  - destruct Hv as [E|[E|H]]; [auto|auto|].
    unfold mbind in *. pose proof (K_context c w Hi) as H1.
    destruct (context c w) as [w1 [a|e]]; simpl in *; [|easy].
    pose proof (K_enter a w1 H1) as H2. destruct (ctx_enter a w1) as [w2 [u|e]]; simpl in *; [|easy]. eauto.
  - destruct Hv as [E|[E|H]]; [auto|auto|].
    pose proof (K_frozen true CircuitError w Hi) as H1.
    destruct (set_frozen true CircuitError w) as [w1 [a|e]]; [|easy]. eauto.
  - destruct Hv as [E|[E|H]]; [auto|auto|eauto].
  - tauto.
Qed.
End Run.

(** ** Objects are kept *)
Definition same_cls (x y : cls) : Prop :=
  k_name y = k_name x /\ k_kind y = k_kind x /\ k_ncontrol y = k_ncontrol x /\ k_ntarget y = k_ntarget x /\ k_nparams y = k_nparams x /\
  (k_numq y = k_numq x \/ (k_kind x = KCtrl \/ k_kind x = KParCtrl) /\ nonzero (k_numq x) = false /\
     exists a b, k_ncontrol x = Some (S a) /\ k_ntarget x = Some (S b) /\ k_numq y = Some (S a + S b)).

Record kept (w w' : world) : Prop := {
  g_cls : forall k x, nth_error (w_cls w) k = Some x -> exists x', nth_error (w_cls w') k = Some x' /\ same_cls x x';
  g_op : forall o y, nth_error (w_op w) o = Some y -> exists y', nth_error (w_op w') o = Some y' /\ o_cls y' = o_cls y;
  g_var : forall v s x, nth_error (w_var w) v = Some (s, x) -> exists x', nth_error (w_var w') v = Some (s, x');
  g_circ : forall d x, nth_error (w_circ w) d = Some x ->
    exists x' more, nth_error (w_circ w') d = Some x' /\ c_par x' = c_par x /\ c_vars x' = c_vars x ++ more;
  g_ctx : forall a cx, nth_error (w_ctx w) a = Some cx -> exists b, nth_error (w_ctx w') a = Some (fst cx, b)
}.

Lemma same_cls_refl x : same_cls x x. Proof. repeat split. now left. Qed.
Lemma same_cls_trans x y z : same_cls x y -> same_cls y z -> same_cls x z.
Proof.
  intros (A & B & C & D & E & F) (A' & B' & C' & D' & E' & F').
  split; [congruence|]. split; [congruence|]. split; [congruence|]. split; [congruence|]. split; [congruence|].
  destruct F as [F|(K & N & a & b & H1 & H2 & H3)]; destruct F' as [F'|(K' & N' & a' & b' & H1' & H2' & H3')].
  - left. congruence.
  - right. rewrite B in K'. rewrite F in N'. split; [exact K'|]. split; [exact N'|]. exists a', b'. rewrite <- C, <- D. auto.
  - right. split; [exact K|]. split; [exact N|]. exists a, b. split; [exact H1|]. split; [exact H2|]. congruence.
  - rewrite H3 in N'. discriminate N'.
Qed.

Lemma kept_refl w : kept w w.
Proof.
  constructor; intros.
  - exists x. auto using same_cls_refl.
  - exists y. auto.
  - exists x. auto.
  - exists x, []. rewrite app_nil_r. auto.
  - exists (snd cx). rewrite H. now destruct cx.
Qed.
Lemma kept_trans a b c : kept a b -> kept b c -> kept a c.
Proof.
  intros [A1 A2 A3 A4 A5] [B1 B2 B3 B4 B5]. constructor; intros.
  - destruct (A1 _ _ H) as (x' & H1 & H2). destruct (B1 _ _ H1) as (x'' & H3 & H4). exists x''. split; [auto|].
    eapply same_cls_trans; eauto.
  - destruct (A2 _ _ H) as (y' & H1 & H2). destruct (B2 _ _ H1) as (y'' & H3 & H4). exists y''. split; congruence.
  - destruct (A3 _ _ _ H) as (x' & H1). eauto.
  - destruct (A4 _ _ H) as (x' & m & H1 & H2 & H3). destruct (B4 _ _ H1) as (x'' & m' & H4 & H5 & H6).
    exists x'', (m ++ m'). split; [auto|]. split; [congruence|]. now rewrite H6, H3, app_assoc.
  - destruct (A5 _ _ H) as (b0 & H1). destruct (B5 _ _ H1) as (b1 & H2). exists b1. exact H2.
Qed.

Lemma nth_app_left {A} (l m : list A) n x : nth_error l n = Some x -> nth_error (l ++ m) n = Some x.
Proof. intros H. rewrite nth_error_app1; [exact H|]. apply nth_error_Some. congruence. Qed.

Lemma nth_set_nth {A} (l : list A) c x (y : A) d z : nth_error l c = Some x -> nth_error l d = Some z ->
  (c = d /\ z = x /\ nth_error (set_nth c y l) d = Some y) \/ (c <> d /\ nth_error (set_nth c y l) d = Some z).
Proof.
  intros H1 H2. destruct (Nat.eq_dec c d) as [->|n].
  - left. split; [auto|]. split; [congruence|]. eapply set_nth_same; eauto.
  - right. split; [auto|]. now rewrite set_nth_other.
Qed.

Lemma nth_set_nth_inv {A} (l : list A) c x (y : A) d z : nth_error l c = Some x -> nth_error (set_nth c y l) d = Some z ->
  (c = d /\ z = y) \/ (c <> d /\ nth_error l d = Some z).
Proof.
  intros H1 H2. destruct (Nat.eq_dec c d) as [->|n].
  - left. split; [auto|]. rewrite (set_nth_same _ _ _ _ H1) in H2. congruence.
  - right. split; [auto|]. now rewrite set_nth_other in H2.
Qed.

(** Worlds that differ in what is not mentioned in [kept]. *)
Lemma kept_circ w c x y : nth_error (w_circ w) c = Some x -> c_par y = c_par x -> (exists more, c_vars y = c_vars x ++ more) ->
  kept w (set_circ w (set_nth c y (w_circ w))).
Proof.
  intros E H1 [m H2]. constructor; cbn; intros.
  - exists x0. auto using same_cls_refl.
  - exists y0. auto.
  - exists x0. auto.
  - destruct (nth_set_nth (w_circ w) c x y d x0 E H) as [(-> & -> & H3)|(n & H3)].
    + exists y, m. auto.
    + exists x0, []. rewrite app_nil_r. auto.
  - exists (snd cx). rewrite H. now destruct cx.
Qed.
Lemma kept_var w l : (forall v s x, nth_error (w_var w) v = Some (s, x) -> exists x', nth_error l v = Some (s, x')) ->
  kept w (set_var w l).
Proof. intros H. destruct (kept_refl w). now constructor. Qed.
Lemma kept_misc w w' : w_cls w' = w_cls w -> w_op w' = w_op w -> w_var w' = w_var w -> w_circ w' = w_circ w -> w_ctx w' = w_ctx w ->
  kept w w'.
Proof. intros E1 E2 E3 E4 E5. destruct (kept_refl w). constructor; rewrite ?E1, ?E2, ?E3, ?E4, ?E5; auto. Qed.

Section KeptInv.
Variable w0 : world.
Notation I := (kept w0).
Lemma kv_misc {A} (m : M A) : (forall w, kept w (fst (m w))) -> inv I m.
Proof. intros H w Hi. eapply kept_trans; [exact Hi|apply H]. Qed.

Lemma kept_tame x : tame P x = true -> inv I (do_call ptrue peqb x).
Proof.
  intros T. apply inv_do_call; auto.
  - intros w c y f Hf E Hi. eapply kept_trans; [exact Hi|]. destruct (Hf y) as (H1 & H2 & H3 & H4 & H5).
    eapply kept_circ; eauto. exists []. now rewrite app_nil_r.
  - intros w par Hi. eapply kept_trans; [exact Hi|]. destruct (kept_refl w). constructor; cbn; auto.
    intros d y H. exists y, []. rewrite app_nil_r. split; [now apply nth_app_left|auto].
  - intros w l Hi. eapply kept_trans; [exact Hi|]. now apply kept_misc.
  - intros w l Hi. eapply kept_trans; [exact Hi|]. now apply kept_misc.
  - intros w s Hi. eapply kept_trans; [exact Hi|]. apply kept_var. intros v t z H. exists z. now apply nth_app_left.
  - intros w k Hk n Hi. eapply kept_trans; [exact Hi|]. destruct (kept_refl w). constructor; cbn; auto.
    intros o y H. exists y. split; [now apply nth_app_left|auto].
  - intros w o y z E H Hi. eapply kept_trans; [exact Hi|]. destruct (kept_refl w). constructor; cbn; auto.
    intros o' y' H'. destruct (nth_set_nth (w_op w) o y z o' y' E H') as [(-> & -> & H3)|(n & H3)]; eauto.
  - intros w k y a b E Hk Hn Ha Hb Hi. eapply kept_trans; [exact Hi|]. destruct (kept_refl w). constructor; cbn; auto.
    intros k' y' H'.
    match goal with |- exists _, nth_error (set_nth _ ?z _) _ = _ /\ _ =>
      destruct (nth_set_nth (w_cls w) k y z k' y' E H') as [(-> & -> & H3)|(m & H3)] end.
    + eexists. split; [exact H3|]. repeat split. right. split; [exact Hk|]. split; [exact Hn|]. exists a, b. auto.
    + exists y'. auto using same_cls_refl.
  - intros w c y o z E L Eo Hi. eapply kept_trans; [exact Hi|]. eapply kept_circ; eauto. exists []. now rewrite app_nil_r.
  - intros w b l v v' E Hi. eapply kept_trans; [exact Hi|]. now apply kept_misc.
Qed.

Lemma kept_upd c f : (forall x, c_par (f x) = c_par x /\ exists more, c_vars (f x) = c_vars x ++ more) -> inv I (@upd_circ P c f).
Proof.
  intros Hf w Hi. destruct (nth_error (w_circ w) c) as [x|] eqn:E.
  - rewrite (upd_circ_run P c f w x E). cbn. eapply kept_trans; [exact Hi|]. destruct (Hf x). eapply kept_circ; eauto.
  - unfold upd_circ. rewrite (bind_err _ _ _ _ _ _ (get_circ_none P c w E)). exact Hi.
Qed.
Lemma kept_quiet c f : (forall x, c_par (f x) = c_par x /\ c_vars (f x) = c_vars x) -> inv I (@upd_circ P c f).
Proof.
  intros H. apply kept_upd. intros x. destruct (H x) as [H1 H2]. split; [auto|]. exists []. now rewrite app_nil_r.
Qed.
Lemma kept_var_put v x : inv I (@var_put P v x).
Proof.
  intros w Hi. unfold var_put. destruct (nth_error (w_var w) v) as [[s y]|] eqn:E; [|exact Hi]. cbn.
  eapply kept_trans; [exact Hi|]. apply kept_var. intros u t z H.
  destruct (nth_set_nth (w_var w) v (s, y) (s, x) u (t, z) E H) as [(-> & H1 & H3)|(n & H3)]; [|eauto].
  injection H1 as -> ->. eauto.
Qed.
Lemma kept_set_vars vs : forall ps, inv I (@set_vars P vs ps).
Proof.
  induction vs as [|v vs IH]; intros [|p ps]; simpl; try apply inv_ret; try apply inv_raise.
  apply inv_bind; [apply kept_var_put|auto].
Qed.
Lemma kept_reset_variables c : inv I (@reset_variables P c).
Proof.
  unfold reset_variables. apply inv_bind; [apply inv_get_circ|]. intros x. apply inv_iterM. intros v. apply kept_var_put.
Qed.
Lemma kept_qubits c : inv I (@qubits P c).
Proof.
  intros w Hi. destruct (qubits_any P c w) as [->|(x & r & E & ->)]; [exact Hi|].
  eapply kept_trans; [exact Hi|]. eapply kept_circ; eauto. exists []. now rewrite app_nil_r.
Qed.
Lemma kept_bits c : inv I (@bits P c).
Proof.
  intros w Hi. destruct (bits_any P c w) as [->|(x & r & E & ->)]; [exact Hi|].
  eapply kept_trans; [exact Hi|]. eapply kept_circ; eauto. exists []. now rewrite app_nil_r.
Qed.
Lemma kept_unlock c : inv I (@unlock P c).
Proof. apply kept_quiet. intros x. destruct (c_par x) eqn:E; cbn; rewrite ?E; auto. Qed.
Lemma kept_grow_vars n : forall a, inv I (@grow_vars P a n).
Proof.
  induction n; intros a; simpl; [apply inv_ret|]. apply inv_bind.
  - apply kv_misc. intros w. cbn. apply kept_var. intros v t z H. exists z. now apply nth_app_left.
  - intros v. apply inv_bind; [apply IHn|]. intros vs. apply inv_ret.
Qed.
Lemma kept_bit_reset b : inv I (@bit_reset P b).
Proof.
  apply kv_misc. intros w. unfold bit_reset.
  destruct (nth_error (w_bit w) b) as [[lb o]|]; [now apply kept_misc|apply kept_refl].
Qed.
Lemma kept_call x : inv I (do_call ptrue peqb x).
Proof.
  destruct (tame P x) eqn:T; [now apply kept_tame|]. destruct x; try discriminate T; cbn [do_call].
  - apply kept_quiet. auto.
  - apply kept_unlock.
  - unfold reset. apply inv_bind; [apply kept_quiet; auto|]. intros _. apply inv_bind; [|intros _; apply kept_unlock].
    destruct keep; [|apply kept_quiet; auto].
    apply inv_bind; [apply kept_bits|]. intros r. apply inv_bind; [apply inv_lift|]. intros l. apply inv_iterM. intros v.
    destruct v; simpl; try apply inv_raise. apply kept_bit_reset.
  - apply kept_var_put.
  - unfold remove_op. apply inv_bind; [apply inv_get_circ|]. intros x. apply inv_bind; [apply inv_index_of|].
    intros i. apply kept_quiet. auto.
  - apply inv_unit_of. unfold get_param. apply inv_bind; [apply inv_get_circ|]. intros x.
    destruct (negb (c_par x)); [apply inv_raise|]. apply inv_bind.
    { destruct (Nat.leb (List.length (c_vars x)) i && negb (c_pfrozen x)); [apply kept_grow_vars|apply inv_ret]. }
    intros vs. apply inv_bind.
    { apply kept_upd. intros y. split; [reflexivity|]. exists vs. reflexivity. }
    intros _. match goal with |- WorldWf.inv _ _ (match ?m with _ => _ end) => destruct m end; [apply inv_ret|apply inv_raise].
  - unfold call_parametric. apply inv_bind; [apply inv_get_circ|]. intros x. destruct (negb (c_par x)); [apply inv_raise|].
    apply inv_bind; [apply inv_read|]. intros act. apply inv_bind; [destruct act; [apply kept_set_vars|apply inv_ret]|].
    intros _. apply inv_bind; [apply kv_misc; intros w; now apply kept_misc|]. intros _.
    pose proof (kept_tame (CCall P t qs ba) eq_refl) as H. cbn in H. unfold call_plain in H.
    apply inv_call_circuit.
    + intros w c y f Hf E Hi. eapply kept_trans; [exact Hi|]. destruct (Hf y) as (H1 & H2 & H3 & H4 & H5).
      eapply kept_circ; eauto. exists []. now rewrite app_nil_r.
    + intros w k Hk n Hi. eapply kept_trans; [exact Hi|]. destruct (kept_refl w). constructor; cbn; auto.
      intros o y Ho. exists y. split; [now apply nth_app_left|auto].
    + intros w o y z E Hc Hi. eapply kept_trans; [exact Hi|]. destruct (kept_refl w). constructor; cbn; auto.
      intros o' y' H'. destruct (nth_set_nth (w_op w) o y z o' y' E H') as [(-> & -> & H3)|(n & H3)]; eauto.
    + intros w k y a b E Hk Hn Ha Hb Hi. eapply kept_trans; [exact Hi|]. destruct (kept_refl w). constructor; cbn; auto.
      intros k' y' H'.
      match goal with |- exists _, nth_error (set_nth _ ?z _) _ = _ /\ _ =>
        destruct (nth_set_nth (w_cls w) k y z k' y' E H') as [(-> & -> & H3)|(m & H3)] end.
      * eexists. split; [exact H3|]. repeat split. right. split; [exact Hk|]. split; [exact Hn|]. exists a, b. auto.
      * exists y'. auto using same_cls_refl.
    + intros w c y o z E L Eo Hi. eapply kept_trans; [exact Hi|]. eapply kept_circ; eauto. exists []. now rewrite app_nil_r.
  - apply kept_reset_variables.
Qed.
Lemma kept_context c : inv I (@context P c).
Proof.
  intros w Hi. unfold context, mbind, get_circ. destruct (nth_error (w_circ w) c) as [x|] eqn:E; cbn; [|exact Hi].
  destruct (c_ctx x); cbn; [exact Hi|]. eapply kept_trans; [exact Hi|].
  apply (kept_trans _ (set_ctx w (w_ctx w ++ [(c, false)]))).
  - destruct (kept_refl w). constructor; cbn; auto. intros a cx H. exists (snd cx). destruct cx. now apply nth_app_left.
  - eapply (kept_circ (set_ctx w (w_ctx w ++ [(c, false)])) c x); eauto. exists []. now rewrite app_nil_r.
Qed.
Lemma kept_enter a : inv I (@ctx_enter P a).
Proof.
  unfold ctx_enter. apply inv_bind; [apply inv_get_ctx|]. intros cx. apply inv_bind; [apply inv_get_circ|]. intros x.
  destruct (c_locked x); [apply inv_raise|]. apply inv_bind; [apply inv_read|]. intros [b|]; [apply inv_raise|].
  apply inv_bind; [apply kv_misc; intros w; now apply kept_misc|]. intros _.
  apply inv_bind; [apply kept_qubits|]. intros _. apply inv_bind; [apply kept_bits|]. intros _. apply inv_ret.
Qed.
Lemma kept_exit a : inv I (@ctx_exit P a).
Proof.
  unfold ctx_exit. apply inv_bind; [apply inv_get_ctx|]. intros cx.
  apply inv_bind. { apply kept_quiet. intros x. destruct (c_par x) eqn:E; cbn; rewrite ?E; auto. }
  intros _. apply inv_bind; [apply kv_misc; intros w; now apply kept_misc|]. intros _.
  apply inv_bind; [apply inv_read|]. intros fs. apply inv_bind; [apply inv_iterM; intros; apply kept_reset_variables|]. intros _.
  apply inv_bind; [apply kv_misc; intros w; now apply kept_misc|]. intros _. apply kept_quiet. auto.
Qed.
Lemma kept_frozen b e : inv I (@set_frozen P b e).
Proof.
  unfold set_frozen. apply inv_bind; [apply inv_read|]. intros [a|]; [|apply inv_raise].
  intros w Hi. unfold mbind, get_ctx. destruct (nth_error (w_ctx w) a) as [cx|] eqn:E; cbn; [|exact Hi].
  eapply kept_trans; [exact Hi|]. destruct (kept_refl w). constructor; cbn; auto.
  intros a' cx' H. destruct (nth_set_nth (w_ctx w) a cx (fst cx, b) a' cx' E H) as [(-> & -> & H3)|(n & H3)]; [eauto|].
  exists (snd cx'). now destruct cx'.
Qed.
End KeptInv.

Lemma kept_run p w : kept w (fst (run ptrue peqb p w)).
Proof.
  apply (run_inv (kept w) (fun _ _ => True)).
  - intros v x _. apply kept_call.
  - intros c. apply kept_context.
  - intros c. apply kept_enter.
  - intros c. apply kept_exit.
  - intros b e. apply kept_frozen.
  - generalize w at 1. clear. induction p; intros w; simpl; auto.
    + split; [auto|]. destruct (run ptrue peqb p1 w) as [w' [u|e]]; auto.
    + match goal with |- match ?m with _ => _ end => destruct m as [w' [u|e]] end; auto.
    + match goal with |- match ?m with _ => _ end => destruct m as [w' [u|e]] end; auto.
  - apply kept_refl.
Qed.
End Wf2.

(** References are valid in every execution; calls leave the contexts alone. *)
From Coq Require Import List ZArith String Bool Arith Lia.
From Verif Require Import Py RegisterModel WorldModel WorldSpec WorldInv WorldInv2 WorldInv5 WorldWf WorldWf2.
Import ListNotations.
Local Open Scope nat_scope.

Section Wf3.
Variable P : Type.
Variable ptrue : P -> bool.
Variable peqb : P -> P -> bool.
Notation world := (world P).
Notation M := (M P).
Notation inv := (inv P).

(** ** The remaining calls *)
Section Rest.
Variable I : world -> Prop.
Hypothesis I_circ : forall w c x f, quiet_upd f -> nth_error (w_circ w) c = Some x -> I w -> I (set_circ w (set_nth c (f x) (w_circ w))).
Hypothesis I_bit : forall w l, I w -> I (set_bit w (w_bit w ++ l)).
Hypothesis I_bitput : forall w b l v v', nth_error (w_bit w) b = Some (l, v) -> I w -> I (set_bit w (set_nth b (l, v') (w_bit w))).
Hypothesis I_var : forall w s, I w -> I (set_var w (w_var w ++ [(s, None)])).
Hypothesis I_op : forall w k, k < List.length (w_cls w) -> forall n, I w -> I (set_op w (w_op w ++ [mkOp k None n [] None None None None])).
Hypothesis I_upd : forall w o x y, nth_error (w_op w) o = Some x -> o_cls y = o_cls x -> I w -> I (set_op w (set_nth o y (w_op w))).
Hypothesis I_settle : forall w k x a b, nth_error (w_cls w) k = Some x -> k_kind x = KCtrl \/ k_kind x = KParCtrl ->
  nonzero (k_numq x) = false -> k_ncontrol x = Some (S a) -> k_ntarget x = Some (S b) -> I w ->
  I (set_cls w (set_nth k (mkCls (k_name x) (k_kind x) (Some (S a + S b)) (k_ncontrol x) (k_ntarget x) (k_nparams x)) (w_cls w))).
Hypothesis I_append : forall w c x o y, nth_error (w_circ w) c = Some x -> c_locked x = false -> nth_error (w_op w) o = Some y ->
  I w -> I (set_circ w (set_nth c (with_ops x (c_ops x ++ [o])) (w_circ w))).
(** The changes made by the remaining calls. *)
Hypothesis I_lock : forall w c x, nth_error (w_circ w) c = Some x -> I w -> I (set_circ w (set_nth c (with_locked x true) (w_circ w))).
Hypothesis I_unlock : forall w c x, nth_error (w_circ w) c = Some x -> I w -> I (set_circ w (set_nth c (with_locked x false) (w_circ w))).
Hypothesis I_empty : forall w c x, nth_error (w_circ w) c = Some x -> I w -> I (set_circ w (set_nth c (with_ctx (with_ops x []) None) (w_circ w))).
Hypothesis I_del : forall w c x i, nth_error (w_circ w) c = Some x -> I w -> I (set_circ w (set_nth c (with_ops x (del_nth i (c_ops x))) (w_circ w))).
Hypothesis I_vars : forall w c x vs, nth_error (w_circ w) c = Some x -> Forall (fun v => v < List.length (w_var w)) vs -> I w ->
  I (set_circ w (set_nth c (with_vars x (c_vars x ++ vs)) (w_circ w))).
Hypothesis I_unset : forall w v s x, nth_error (w_var w) v = Some (s, x) -> I w -> I (set_var w (set_nth v (s, None) (w_var w))).

Lemma inv_lock c : inv I (@lock P c).
Proof.
  intros w Hi. unfold lock. destruct (nth_error (w_circ w) c) as [x|] eqn:E.
  - rewrite (upd_circ_run P c _ w x E). cbn. now apply I_lock.
  - unfold upd_circ. rewrite (bind_err _ _ _ _ _ _ (get_circ_none P c w E)). exact Hi.
Qed.
Lemma inv_unlock c : inv I (@unlock P c).
Proof.
  intros w Hi. unfold unlock. destruct (nth_error (w_circ w) c) as [x|] eqn:E.
  - rewrite (upd_circ_run P c _ w x E). cbn. destruct (c_par x); [|now apply I_unlock].
    assert (H : I (set_circ w (set_nth c (with_pfrozen x false) (w_circ w)))).
    { apply (I_circ w c x (fun y => with_pfrozen y false)); auto. intros y. auto. }
    pose proof (I_unlock (set_circ w (set_nth c (with_pfrozen x false) (w_circ w))) c (with_pfrozen x false)) as K.
    cbn in K. rewrite set_nth_set_nth in K. apply K; [|exact H]. eapply set_nth_same; eauto.
  - unfold upd_circ. rewrite (bind_err _ _ _ _ _ _ (get_circ_none P c w E)). exact Hi.
Qed.
Lemma inv_reset c k : inv I (@reset P c k).
Proof.
  unfold reset. apply inv_bind.
  - intros w Hi. destruct (nth_error (w_circ w) c) as [x|] eqn:E.
    + rewrite (upd_circ_run P c _ w x E). cbn. now apply I_empty.
    + unfold upd_circ. rewrite (bind_err _ _ _ _ _ _ (get_circ_none P c w E)). exact Hi.
  - intros _. apply inv_bind; [|intros _; apply inv_unlock]. destruct k.
    + apply inv_bind; [apply inv_bits, I_circ|]. intros r. apply inv_bind; [apply inv_lift|]. intros l.
      apply inv_iterM. intros v. apply inv_item_reset, I_bitput.
    + apply inv_upd_circ; [apply I_circ|]. intros x. auto.
Qed.
Lemma inv_remove c o : inv I (remove_op ptrue peqb c o).
Proof.
  unfold remove_op. apply inv_bind; [apply inv_get_circ|]. intros x. apply inv_bind; [apply inv_index_of|]. intros i w Hi.
  destruct (nth_error (w_circ w) c) as [y|] eqn:E.
  - rewrite (upd_circ_run P c _ w y E). cbn. now apply I_del.
  - unfold upd_circ. rewrite (bind_err _ _ _ _ _ _ (get_circ_none P c w E)). exact Hi.
Qed.
Lemma grow_vars_run n : forall a (w : world), exists l, 
  grow_vars a n w = (set_var w (w_var w ++ l), Ok (seq (List.length (w_var w)) n)) /\ List.length l = n /\ Forall (fun p => snd p = None) l.
Proof.
  induction n as [|n IH]; intros a w; simpl.
  - exists []. rewrite app_nil_r. split; [now destruct w|auto].
  - unfold mbind, new_var at 1. destruct (IH (S a) (set_var w (w_var w ++ [(py_str a, None)]))) as (l & E & H & F). rewrite E. cbn.
    exists ((py_str a, None) :: l). rewrite <- app_assoc, app_length. cbn. rewrite Nat.add_1_r. split; [reflexivity|]. split; [lia|].
    now constructor.
Qed.
Lemma inv_get_param c i : inv I (@get_param P c i).
Proof.
  intros w Hi. unfold get_param. destruct (nth_error (w_circ w) c) as [x|] eqn:E.
  2: { now rewrite (bind_err _ _ _ _ _ _ (get_circ_none P c w E)). }
  rewrite (bind_ok _ _ _ _ _ _ (get_circ_some P c w x E)). destruct (negb (c_par x)); [exact Hi|]. cbv zeta.
  assert (K : forall vs, inv (fun w => I w /\ exists y, nth_error (w_circ w) c = Some y /\ Forall (fun v => v < List.length (w_var w)) vs)
     (upd_circ c (fun y => with_vars y (c_vars y ++ vs)) ;; match nth_error (c_vars x ++ vs) i with Some v => ret v | None => @raise P nat IndexError end)).
  { intros vs u (Hu & y & Ey & Hvs). unfold mbind. rewrite (upd_circ_run P c _ u y Ey).
    assert (G : I (set_circ u (set_nth c (with_vars y (c_vars y ++ vs)) (w_circ u)))) by now apply I_vars.
    split; [destruct (nth_error (c_vars x ++ vs) i); exact G|].
    exists (with_vars y (c_vars y ++ vs)). destruct (nth_error (c_vars x ++ vs) i); cbn; split; auto; eapply set_nth_same; eauto. }
  destruct (Nat.leb (List.length (c_vars x)) i && negb (c_pfrozen x)).
  - destruct (grow_vars_run (S i - List.length (c_vars x)) (List.length (c_vars x)) w) as (l & El & Hl & Fl).
    rewrite (bind_ok _ _ _ _ _ _ El). apply K. split.
    + clear -Hi I_var Fl.
      assert (G : forall m, I (set_var w (w_var w ++ m)) -> I (set_var w (w_var w ++ m ++ l))).
      { induction l as [|[t o] l IH]; intros m Hm; [now rewrite app_nil_r|]. inversion Fl as [|? ? Ho Fl']; subst. cbn in Ho. subst o.
        change ((t, None) :: l) with ([(t, @None P)] ++ l). rewrite (app_assoc m). apply (IH Fl'). rewrite app_assoc.
        apply (I_var (set_var w (w_var w ++ m)) t Hm). }
      apply (G []). rewrite app_nil_r. now destruct w.
    + exists x. split; [exact E|]. apply Forall_forall. intros v Hv. apply in_seq in Hv. cbn. rewrite app_length. lia.
  - rewrite (bind_ok _ _ _ _ _ _ eq_refl). apply K. split; [exact Hi|]. exists x. split; [exact E|constructor].
Qed.
Lemma inv_unset v : inv I (@var_put P v None).
Proof.
  intros w Hi. unfold var_put. destruct (nth_error (w_var w) v) as [[s y]|] eqn:E; [|exact Hi]. cbn. eapply I_unset; eauto.
Qed.
Lemma inv_reset_variables c : inv I (@reset_variables P c).
Proof.
  unfold reset_variables. apply inv_bind; [apply inv_get_circ|]. intros x. apply inv_iterM. intros v. apply inv_unset.
Qed.
Section Par.
Hypothesis I_set : forall w v s x p, nth_error (w_var w) v = Some (s, x) -> I w -> I (set_var w (set_nth v (s, p) (w_var w))).
Hypothesis I_exit : forall w t, t < List.length (w_circ w) -> I w -> I (set_exit w (w_exit w ++ [t])).
Lemma inv_var_put v p : inv I (@var_put P v p).
Proof.
  intros w Hi. unfold var_put. destruct (nth_error (w_var w) v) as [[s y]|] eqn:E; [|exact Hi]. cbn. eapply I_set; eauto.
Qed.
Lemma inv_set_vars vs : forall ps, inv I (@set_vars P vs ps).
Proof.
  induction vs as [|v vs IH]; intros [|p ps]; simpl; try apply inv_ret; try apply inv_raise.
  apply inv_bind; [apply inv_var_put|auto].
Qed.
Lemma var_put_frame v p (w : world) : w_circ (fst (var_put v p w)) = w_circ w /\ w_exit (fst (var_put v p w)) = w_exit w.
Proof. unfold var_put. now destruct (nth_error (w_var w) v) as [[s y]|]. Qed.
Lemma set_vars_frame vs : forall ps (w : world), w_circ (fst (set_vars vs ps w)) = w_circ w /\ w_exit (fst (set_vars vs ps w)) = w_exit w.
Proof.
  induction vs as [|v vs IH]; intros [|p ps] w; simpl; auto. unfold mbind. destruct (var_put_frame v (Some p) w) as [H1 H2].
  destruct (var_put v (Some p) w) as [w' [u|e]]; simpl in *; [|auto]. destruct (IH ps w') as [H3 H4]. split; congruence.
Qed.
Lemma inv_call_parametric t ps qs ba : inv I (call_parametric ptrue t ps qs ba).
Proof.
  intros w Hi. unfold call_parametric. destruct (nth_error (w_circ w) t) as [x|] eqn:E.
  2: { now rewrite (bind_err _ _ _ _ _ _ (get_circ_none P t w E)). }
  rewrite (bind_ok _ _ _ _ _ _ (get_circ_some P t w x E)). destruct (negb (c_par x)); [exact Hi|]. unfold read. unfold mbind at 1. cbv beta iota.
  assert (Ht : t < List.length (w_circ w)) by (apply nth_error_Some; congruence).
  assert (K : forall u : world, I u -> List.length (w_circ u) = List.length (w_circ w) ->
    I (fst (((fun w0 => (set_exit w0 (w_exit w0 ++ [t]), Ok tt)) ;; call_circuit ptrue t qs ba) u))).
  { intros u Hu Hl. unfold mbind. cbv beta iota. apply (inv_call_circuit P ptrue I); auto.
    apply I_exit; [lia|exact Hu]. }
  unfold mbind at 1. destruct (w_active w); cbv beta iota; [|now apply K].
  destruct (set_vars_frame (c_vars x) ps w) as [F1 F2]. pose proof (inv_set_vars (c_vars x) ps w Hi) as Hs.
  destruct (set_vars (c_vars x) ps w) as [w' [u|e]]; simpl in *; [|exact Hs]. apply K; [exact Hs|now rewrite F1].
Qed.
End Par.
End Rest.

(** ** Calls do not touch the contexts *)
Section Frame.
Variable X : list (nat * bool).
Variable A : option nat.
Definition ctx_is (w : world) : Prop := w_ctx w = X /\ w_active w = A.
Lemma ctx_call x : inv ctx_is (do_call ptrue peqb x).
Proof.
  destruct (tame P x) eqn:T.
  - apply inv_do_call; auto; intros; assumption.
  - destruct x; try discriminate T; cbn [do_call].
    + apply inv_lock; intros; assumption.
    + apply inv_unlock; intros; assumption.
    + apply inv_reset; intros; assumption.
    + apply inv_var_put; intros; assumption.
    + apply inv_remove; intros; assumption.
    + apply inv_unit_of, inv_get_param; intros; assumption.
    + apply inv_call_parametric; intros; assumption.
    + apply inv_reset_variables; intros; assumption.
Qed.
End Frame.
Lemma call_ctx x (w : world) : w_ctx (fst (do_call ptrue peqb x w)) = w_ctx w.
Proof. exact (proj1 (ctx_call (w_ctx w) (w_active w) x w (conj eq_refl eq_refl))). Qed.
Lemma call_active x (w : world) : w_active (fst (do_call ptrue peqb x w)) = w_active w.
Proof. exact (proj2 (ctx_call (w_ctx w) (w_active w) x w (conj eq_refl eq_refl))). Qed.

(** ** Valid references *)
Record WF (w : world) : Prop := {
  wf_ops : forall c x o, nth_error (w_circ w) c = Some x -> In o (c_ops x) -> o < List.length (w_op w);
  wf_vars : forall c x v, nth_error (w_circ w) c = Some x -> In v (c_vars x) -> v < List.length (w_var w);
  wf_own : forall c x a, nth_error (w_circ w) c = Some x -> c_ctx x = Some a -> exists b, nth_error (w_ctx w) a = Some (c, b);
  wf_ctx : forall a cx, nth_error (w_ctx w) a = Some cx -> fst cx < List.length (w_circ w);
  wf_act : forall a, w_active w = Some a -> a < List.length (w_ctx w);
  wf_exit : forall t, In t (w_exit w) -> t < List.length (w_circ w);
  wf_cls : forall o y, nth_error (w_op w) o = Some y -> o_cls y < List.length (w_cls w)
}.

Lemma WF_put (w : world) c x y : WF w -> nth_error (w_circ w) c = Some x ->
  (forall o, In o (c_ops y) -> o < List.length (w_op w)) -> (forall v, In v (c_vars y) -> v < List.length (w_var w)) ->
  (forall a, c_ctx y = Some a -> exists b, nth_error (w_ctx w) a = Some (c, b)) ->
  WF (set_circ w (set_nth c y (w_circ w))).
Proof.
  intros [H1 H2 H3 H4 H5 H6 H7] E K1 K2 K3. constructor; cbn; rewrite ?set_nth_length; auto.
  - intros d z o Hd. destruct (nth_set_nth_inv _ c x y d z E Hd) as [(-> & ->)|(n & Hn)]; eauto.
  - intros d z o Hd. destruct (nth_set_nth_inv _ c x y d z E Hd) as [(-> & ->)|(n & Hn)]; eauto.
  - intros d z o Hd. destruct (nth_set_nth_inv _ c x y d z E Hd) as [(-> & ->)|(n & Hn)]; eauto.
Qed.
Lemma WF_more_circ (w : world) y : WF w -> c_ops y = [] -> c_vars y = [] -> c_ctx y = None -> WF (set_circ w (w_circ w ++ [y])).
Proof.
  intros [H1 H2 H3 H4 H5 H6 H7] K1 K2 K3.
  assert (K : forall d z, nth_error (w_circ w ++ [y]) d = Some z -> nth_error (w_circ w) d = Some z \/ z = y).
  { intros d z Hd. destruct (Nat.lt_ge_cases d (List.length (w_circ w))) as [L|L].
    - left. now rewrite nth_error_app1 in Hd.
    - right. rewrite nth_error_app2 in Hd by auto. destruct (d - List.length (w_circ w)) as [|k]; simpl in Hd; [congruence|destruct k; discriminate]. }
  constructor; cbn; rewrite ?app_length; cbn; auto.
  - intros d z o Hd. destruct (K d z Hd) as [Hz| ->]; eauto. rewrite K1. contradiction.
  - intros d z o Hd. destruct (K d z Hd) as [Hz| ->]; eauto. rewrite K2. contradiction.
  - intros d z o Hd. destruct (K d z Hd) as [Hz| ->]; eauto. congruence.
  - intros a cx Ha. specialize (H4 a cx Ha). lia.
  - intros t Ht. specialize (H6 t Ht). lia.
Qed.

Lemma WF_quiet (w : world) c x f : quiet_upd f -> nth_error (w_circ w) c = Some x -> WF w ->
  WF (set_circ w (set_nth c (f x) (w_circ w))).
Proof.
  intros Hf E W. destruct (Hf x) as (F1 & F2 & F3 & F4 & F5). eapply WF_put; eauto; rewrite ?F1, ?F3, ?F5; destruct W; eauto.
Qed.
Lemma WF_set_bit (w : world) l : WF w -> WF (set_bit w l). Proof. intros []. now constructor. Qed.
Lemma WF_set_qubit (w : world) l : WF w -> WF (set_qubit w l). Proof. intros []. now constructor. Qed.
Lemma WF_more_var (w : world) s : WF w -> WF (set_var w (w_var w ++ [(s, None)])).
Proof.
  intros []. constructor; auto. cbn. intros c x v H K. rewrite app_length. specialize (wf_vars0 c x v H K). lia.
Qed.
Lemma WF_set_var (w : world) v y : WF w -> WF (set_var w (set_nth v y (w_var w))).
Proof. intros []. constructor; auto. cbn. intros c x u H K. rewrite set_nth_length. eauto. Qed.
Lemma WF_more_op (w : world) k : k < List.length (w_cls w) -> forall n, WF w -> WF (set_op w (w_op w ++ [mkOp k None n [] None None None None])).
Proof.
  intros Hk n []. constructor; auto; cbn.
  - intros c x o H K. rewrite app_length. specialize (wf_ops0 c x o H K). lia.
  - intros o y H. destruct (Nat.lt_ge_cases o (List.length (w_op w))) as [L|L].
    + rewrite nth_error_app1 in H by auto. eauto.
    + rewrite nth_error_app2 in H by auto. destruct (o - List.length (w_op w)) as [|m]; simpl in H; [|destruct m; discriminate].
      injection H as <-. exact Hk.
Qed.
Lemma WF_upd_op (w : world) o x y : nth_error (w_op w) o = Some x -> o_cls y = o_cls x -> WF w -> WF (set_op w (set_nth o y (w_op w))).
Proof.
  intros E H []. constructor; auto; cbn; rewrite ?set_nth_length; auto.
  intros o' y' H'. destruct (nth_set_nth_inv _ o x y o' y' E H') as [(-> & ->)|(n & Hn)]; [rewrite H|]; eauto.
Qed.
Lemma WF_settle (w : world) k y : WF w -> WF (set_cls w (set_nth k y (w_cls w))).
Proof. intros []. constructor; auto. cbn. intros. rewrite set_nth_length. eauto. Qed.
Lemma WF_append (w : world) c x o y : nth_error (w_circ w) c = Some x -> c_locked x = false -> nth_error (w_op w) o = Some y ->
  WF w -> WF (set_circ w (set_nth c (with_ops x (c_ops x ++ [o])) (w_circ w))).
Proof.
  intros E _ Eo W. eapply WF_put; eauto; cbn; destruct W; eauto.
  intros o' H. apply in_app_or in H. destruct H as [H|[<-|[]]]; [eauto|]. apply nth_error_Some. congruence.
Qed.
Lemma WF_plain (w : world) c x y : nth_error (w_circ w) c = Some x -> c_ops y = c_ops x -> c_vars y = c_vars x -> c_ctx y = c_ctx x ->
  WF w -> WF (set_circ w (set_nth c y (w_circ w))).
Proof. intros E E1 E2 E3 W. eapply WF_put; eauto; rewrite ?E1, ?E2, ?E3; destruct W; eauto. Qed.
Lemma in_del_nth {B} (l : list B) : forall i v, In v (del_nth i l) -> In v l.
Proof. induction l as [|b l IH]; intros [|i] v; simpl; auto. intros [->|H]; eauto. Qed.

Lemma WF_call x : inv WF (do_call ptrue peqb x).
Proof.
  destruct (tame P x) eqn:T.
  - apply inv_do_call; auto using WF_quiet, WF_set_bit, WF_set_qubit, WF_more_var, WF_more_op, WF_settle.
    + intros w par W. now apply WF_more_circ.
    + intros. eapply WF_upd_op; eauto.
    + intros. eapply WF_append; eauto.
  - destruct x; try discriminate T; cbn [do_call].
    + apply inv_lock. intros w d x E W. eapply WF_plain; eauto.
    + apply inv_unlock; [exact WF_quiet|]. intros w d x E W. eapply WF_plain; eauto.
    + apply inv_reset; auto using WF_set_bit, WF_quiet.
      * intros w d x E W. eapply WF_plain; eauto.
      * intros w d x E W. eapply WF_put; eauto; cbn; [contradiction|destruct W; eauto|discriminate].
    + apply inv_var_put. intros. now apply WF_set_var.
    + apply inv_remove. intros w d x i E W. eapply WF_put; eauto; cbn; destruct W; eauto. intros o' H. apply in_del_nth in H. eauto.
    + apply inv_unit_of, inv_get_param; [exact WF_more_var|]. intros w d x vs E F W. eapply WF_put; eauto; cbn; try (destruct W; eauto; fail).
      intros v H. apply in_app_or in H. destruct H as [H|H]; [destruct W; eauto|]. rewrite Forall_forall in F. auto.
    + apply inv_call_parametric; auto using WF_quiet, WF_set_bit, WF_more_op, WF_settle.
      * intros. eapply WF_upd_op; eauto.
      * intros. eapply WF_append; eauto.
      * intros. now apply WF_set_var.
      * intros w d H W. destruct W. constructor; auto. cbn. intros u Hu. apply in_app_or in Hu. destruct Hu as [Hu|[<-|[]]]; auto.
    + apply inv_reset_variables. intros. now apply WF_set_var.
Qed.
Lemma WF_context c : inv WF (@context P c).
Proof.
  intros w W. unfold context, mbind, get_circ. destruct (nth_error (w_circ w) c) as [x|] eqn:E; cbn; [|exact W].
  destruct (c_ctx x) eqn:Ec; cbn; [exact W|]. destruct W as [H1 H2 H3 H4 H5 H6 H7].
  assert (G : forall a (b : nat * bool), nth_error (w_ctx w) a = Some b -> nth_error (w_ctx w ++ [(c, false)]) a = Some b).
  { intros a b H. now apply nth_app_left. }
  constructor; cbn; rewrite ?set_nth_length; auto.
  - intros d z o Hd. destruct (nth_set_nth_inv _ c x _ d z E Hd) as [(-> & ->)|(n & Hn)]; cbn; eauto.
  - intros d z o Hd. destruct (nth_set_nth_inv _ c x _ d z E Hd) as [(-> & ->)|(n & Hn)]; cbn; eauto.
  - intros d z o Hd. destruct (nth_set_nth_inv _ c x _ d z E Hd) as [(-> & ->)|(n & Hn)]; cbn.
    + intros [= <-]. exists false. rewrite nth_error_app2, Nat.sub_diag by auto. reflexivity.
    + intros Ho. destruct (H3 _ _ _ Hn Ho) as [b Hb]. eauto.
  - intros a cx Ha. destruct (Nat.lt_ge_cases a (List.length (w_ctx w))) as [L|L].
    + rewrite nth_error_app1 in Ha by auto. eauto.
    + rewrite nth_error_app2 in Ha by auto. destruct (a - List.length (w_ctx w)) as [|m]; simpl in Ha; [|destruct m; discriminate].
      injection Ha as <-. cbn. apply nth_error_Some. congruence.
  - intros a Ha. rewrite app_length. specialize (H5 a Ha). lia.
Qed.
Lemma WF_enter a : inv WF (@ctx_enter P a).
Proof.
  intros w W. unfold ctx_enter, mbind at 1, get_ctx. destruct (nth_error (w_ctx w) a) as [cx|] eqn:E; cbn [the ret raise]; [|exact W].
  unfold mbind at 1, get_circ. destruct (nth_error (w_circ w) (fst cx)) as [x|] eqn:Ex; cbn [the ret raise]; [|exact W].
  destruct (c_locked x); [exact W|]. unfold mbind at 1, read. destruct (w_active w) eqn:Ea; [exact W|].
  unfold mbind at 1. cbv beta iota. apply inv_ctx_enter_views; [exact WF_quiet|].
  destruct W. constructor; auto. cbn. intros b [= <-]. apply nth_error_Some. congruence.
Qed.
Lemma WF_exit a : inv WF (@ctx_exit P a).
Proof.
  unfold ctx_exit. apply inv_bind; [apply inv_get_ctx|]. intros cx.
  apply inv_bind. { apply inv_upd_circ; [exact WF_quiet|]. intros x. destruct (c_par x) eqn:E; cbn; rewrite ?E; auto. }
  intros _. apply inv_bind. { intros w []. constructor; auto. cbn. discriminate. }
  intros _. apply inv_bind; [apply inv_read|]. intros fs. apply inv_bind.
  { apply inv_iterM; intros. apply inv_reset_variables. intros. now apply WF_set_var. }
  intros _. apply inv_bind. { intros w []. constructor; auto. cbn. contradiction. }
  intros _. apply inv_lock. intros w d x E W. eapply WF_plain; eauto.
Qed.
Lemma WF_frozen b e : inv WF (@set_frozen P b e).
Proof.
  unfold set_frozen. apply inv_bind; [apply inv_read|]. intros [a|]; [|apply inv_raise].
  intros w W. unfold mbind, get_ctx. destruct (nth_error (w_ctx w) a) as [cx|] eqn:E; cbn; [|exact W].
  destruct W as [H1 H2 H3 H4 H5 H6 H7]. constructor; cbn; rewrite ?set_nth_length; auto.
  - intros c x a' Hc Ha. destruct (H3 c x a' Hc Ha) as [b' Hb].
    destruct (nth_set_nth (w_ctx w) a cx (fst cx, b) a' (c, b') E Hb) as [(-> & <- & H)|(n & H)]; cbn in *; eauto.
  - intros a' cx' Ha. destruct (nth_set_nth_inv _ a cx _ a' cx' E Ha) as [(-> & ->)|(n & H)]; cbn; eauto.
Qed.
Lemma WF_start ks : WF (start P ks).
Proof.
  constructor; cbn; intros.
  all: repeat match goal with H : nth_error [] ?n = Some _ |- _ => destruct n; discriminate H end.
  - discriminate.
  - contradiction.
Qed.

Lemma executes_true p : forall w, executes P ptrue peqb (fun _ _ => True) p w.
Proof.
  induction p; intros w; simpl; auto.
  - split; [auto|]. destruct (run ptrue peqb p1 w) as [w' [u|e]]; auto.
  - match goal with |- match ?m with _ => _ end => destruct m as [w' [u|e]] end; auto.
  - match goal with |- match ?m with _ => _ end => destruct m as [w' [u|e]] end; auto.
Qed.
Lemma WF_run p w : WF w -> WF (fst (run ptrue peqb p w)).
Proof.
  intros W. apply (run_inv P ptrue peqb WF (fun _ _ => True)); auto using WF_context, WF_enter, WF_exit, WF_frozen, executes_true.
  intros v x _. apply WF_call.
Qed.
Theorem WF_reach ok v : reaches P ptrue peqb ok v -> WF v.
Proof.
  intros (ks & p & He & Hv). eapply (visits_inv P ptrue peqb WF (fun _ _ => True)); [..|exact Hv];
    auto using WF_context, WF_enter, WF_exit, WF_frozen, executes_true, WF_start.
  intros w x _. apply WF_call.
Qed.
End Wf3.

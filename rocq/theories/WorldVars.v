(** The variables of circuits, and which operations can hold variables. *)
From Coq Require Import List ZArith String Bool Arith Lia.
From Verif Require Import Py RegisterModel RegisterSpec WorldModel WorldSpec WorldSpec3 WorldSpec4 WorldReg WorldInv WorldInv2 WorldInv3 WorldInv4 WorldInv5 WorldWf WorldWf2 WorldWf3 WorldOps WorldCtx WorldCtx2 WorldCtx3 WorldBuild WorldReplay WorldTrace WorldOwn WorldOwn2.
Import ListNotations.
Local Open Scope nat_scope.

Section Vars.
Variable P : Type.
Variable ptrue : P -> bool.
Variable peqb : P -> P -> bool.
Notation world := (world P).
Notation M := (M P).
Notation do_call := (do_call ptrue peqb).
Notation inv := (inv P).
Notation WF := (WF P).

(** ** Each variable belongs to one circuit, once *)
Definition VD (w : world) : Prop :=
  (forall c x, nth_error (w_circ w) c = Some x -> NoDup (c_vars x)) /\
  (forall c d x y v, nth_error (w_circ w) c = Some x -> nth_error (w_circ w) d = Some y -> In v (c_vars x) -> In v (c_vars y) -> c = d).

Section From.
Variable w0 : world.
Definition VS (w : world) : Prop := forall c x, nth_error (w_circ w) c = Some x ->
  c_vars x = [] \/ exists x0, nth_error (w_circ w0) c = Some x0 /\ c_vars x = c_vars x0.
Lemma VS_same (w w' : world) : w_circ w' = w_circ w -> VS w -> VS w'.
Proof. intros H V. unfold VS. now rewrite H. Qed.
Lemma VS_put (w : world) c x y : nth_error (w_circ w) c = Some x -> c_vars y = c_vars x -> VS w -> VS (set_circ w (set_nth c y (w_circ w))).
Proof.
  intros E H V d z Ez. cbn in Ez. destruct (nth_set_nth_inv (w_circ w) c x y d z E Ez) as [(e & ->)|(_ & Ez')]; [|auto].
  rewrite H. rewrite e in *. auto.
Qed.
Lemma VS_quiet (w : world) c x f : quiet_upd f -> nth_error (w_circ w) c = Some x -> VS w -> VS (set_circ w (set_nth c (f x) (w_circ w))).
Proof. intros Hf E. apply VS_put with x; [exact E|]. apply (Hf x). Qed.
Lemma VS_new (w : world) par : VS w -> VS (set_circ w (w_circ w ++ [mkCirc [] (mkSide [] None) (mkSide [] None) false None par [] false])).
Proof.
  intros V d z Ez. cbn in Ez. destruct (Nat.lt_ge_cases d (List.length (w_circ w))) as [L|L].
  - rewrite nth_error_app1 in Ez by exact L. auto.
  - rewrite nth_error_app2 in Ez by exact L. destruct (d - List.length (w_circ w)) as [|n]; cbn in Ez; [injection Ez as <-; auto|destruct n; discriminate].
Qed.
Lemma VS_call x : (forall c i, x <> CGetParam P c i) -> inv VS (do_call x).
Proof.
  intros Hx. destruct (tame P x) eqn:T.
  - apply inv_do_call; auto using VS_quiet; try (intros; eapply VS_same; eauto; reflexivity).
    + intros w par V. now apply VS_new.
    + intros. eapply VS_put; eauto.
  - destruct x; try discriminate T; cbn [WorldModel.do_call].
    + apply inv_lock. intros w d x E V. eapply VS_put; eauto.
    + apply inv_unlock; [exact VS_quiet|]. intros w d x E V. eapply VS_put; eauto.
    + apply inv_reset; auto using VS_quiet.
      * intros w d x E V. eapply VS_put; eauto.
      * intros w d x E V. eapply VS_put; eauto.
    + apply inv_var_put. intros w v0 s y p _ V. exact V.
    + apply inv_remove. intros w d x i E V. eapply VS_put; eauto.
    + exfalso. eapply Hx; eauto.
    + apply inv_call_parametric; auto using VS_quiet; try (intros; eapply VS_same; eauto; reflexivity).
      intros. eapply VS_put; eauto.
    + apply inv_reset_variables. intros w v0 s y _ V. exact V.
Qed.
Lemma VS_context c : inv VS (@context P c).
Proof.
  intros w V. unfold context, mbind, get_circ. destruct (nth_error (w_circ w) c) as [x|] eqn:E; cbn; [|exact V].
  destruct (c_ctx x) eqn:Ec; cbn; [exact V|]. apply (VS_put (set_ctx w _) c x); auto.
Qed.
Lemma VS_enter a : inv VS (@ctx_enter P a).
Proof.
  unfold ctx_enter. apply inv_bind; [apply inv_get_ctx|]. intros cx. apply inv_bind; [apply inv_get_circ|]. intros x.
  destruct (c_locked x); [apply inv_raise|]. apply inv_bind; [apply inv_read|]. intros [b|]; [apply inv_raise|].
  apply inv_bind; [intros w Hi; exact Hi|]. intros _. apply inv_ctx_enter_views. exact VS_quiet.
Qed.
Lemma VS_exit a : inv VS (@ctx_exit P a).
Proof.
  unfold ctx_exit. apply inv_bind; [apply inv_get_ctx|]. intros cx.
  apply inv_bind. { apply inv_upd_circ; [exact VS_quiet|]. intros x. destruct (c_par x) eqn:E; cbn; rewrite ?E; auto. }
  intros _. apply inv_bind; [intros w Hi; exact Hi|].
  intros _. apply inv_bind; [apply inv_read|]. intros fs. apply inv_bind.
  { apply inv_iterM; intros. apply inv_reset_variables. intros w v0 s y _ Hi. exact Hi. }
  intros _. apply inv_bind; [intros w Hi; exact Hi|].
  intros _. apply inv_lock. intros w d x E V. eapply VS_put; eauto.
Qed.
Lemma VS_frozen b e : inv VS (@set_frozen P b e).
Proof.
  unfold set_frozen. apply inv_bind; [apply inv_read|]. intros [a|]; [|apply inv_raise].
  intros w Hi. unfold mbind, get_ctx. destruct (nth_error (w_ctx w) a); cbn; exact Hi.
Qed.
End From.
Lemma VS_refl w : VS w w. Proof. intros c x E. eauto. Qed.
Lemma VD_from (w w' : world) : VS w w' -> VD w -> VD w'.
Proof.
  intros V [N D]. split.
  - intros c x E. destruct (V c x E) as [->|(x0 & E0 & ->)]; [constructor|eauto].
  - intros c d x y v E F Hx Hy. destruct (V c x E) as [H|(x0 & E0 & H)]; rewrite H in Hx; [destruct Hx|].
    destruct (V d y F) as [H'|(y0 & F0 & H')]; rewrite H' in Hy; [destruct Hy|]. eapply D; eauto.
Qed.
Lemma VD_call x (w : world) : WF w -> VD w -> VD (fst (do_call x w)).
Proof.
  intros W V. assert (Hx : (forall c i, x <> CGetParam P c i) \/ exists c i, x = CGetParam P c i).
  { destruct x; eauto; left; discriminate. }
  destruct Hx as [Hx|(c & i & ->)]; [eapply VD_from; [|exact V]; apply VS_call; [exact Hx|apply VS_refl]|].
  cbn [WorldModel.do_call]. unfold unit_of, get_param. destruct (nth_error (w_circ w) c) as [x|] eqn:E.
  2: { unfold mbind. unfold get_circ. rewrite E. exact V. }
  assert (G : forall m (u : world), fst ((m ;; ret tt) u) = fst ((m : M nat) u)).
  { intros m u. unfold mbind. destruct (m u) as [u' [a|e]]; reflexivity. }
  rewrite G. rewrite (bind_ok _ _ _ _ _ _ (get_circ_some P c w x E)). destruct (negb (c_par x)); [exact V|]. cbv zeta.
  assert (K : forall vs (u : world), w_circ u = w_circ w -> NoDup vs -> (forall v, In v vs -> List.length (w_var w) <= v) ->
    VD (fst ((upd_circ c (fun y => with_vars y (c_vars y ++ vs)) ;; match nth_error (c_vars x ++ vs) i with Some v => ret v | None => @raise P nat IndexError end) u))).
  { intros vs u Hu Hn Hv. assert (Eu : nth_error (w_circ u) c = Some x) by now rewrite Hu.
    rewrite (bind_ok _ _ _ _ _ _ (upd_circ_run P c _ u x Eu)).
    assert (VD (set_circ u (set_nth c (with_vars x (c_vars x ++ vs)) (w_circ u)))).
    2: { destruct (nth_error (c_vars x ++ vs) i); exact H. }
    destruct V as [N D]. pose proof (wf_vars _ _ W) as Wv.
    assert (Fr : forall d y v, nth_error (w_circ w) d = Some y -> In v (c_vars y) -> In v vs -> False).
    { intros d y v Ed Hy Hi. specialize (Wv d y v Ed Hy). specialize (Hv v Hi). lia. }
    rewrite Hu. split; cbn.
    - intros d z Ez. destruct (nth_set_nth_inv (w_circ w) c x _ d z E Ez) as [(e & ->)|(_ & Ez')]; [|eauto]. cbn.
      apply NoDup_app_intro; eauto.
    - intros a b y z v Ea Eb Ha Hb.
      destruct (nth_set_nth_inv (w_circ w) c x _ a y E Ea) as [(e & ->)|(n & Ea')];
      destruct (nth_set_nth_inv (w_circ w) c x _ b z E Eb) as [(e' & ->)|(n' & Eb')]; cbn in *; try congruence.
      + apply in_app_or in Ha. destruct Ha as [Ha|Ha]; [rewrite <- e in *; eapply D; eauto|]. exfalso. eapply Fr; eauto.
      + apply in_app_or in Hb. destruct Hb as [Hb|Hb]; [rewrite <- e' in *; eapply D; eauto|]. exfalso. eapply Fr; eauto.
      + eapply D; eauto. }
  destruct (Nat.leb (List.length (c_vars x)) i && negb (c_pfrozen x)).
  - destruct (grow_vars_run P (S i - List.length (c_vars x)) (List.length (c_vars x)) w) as (l & El & Hl & Fl).
    rewrite (bind_ok _ _ _ _ _ _ El). apply K; [reflexivity|apply seq_NoDup|]. intros v Hv. apply in_seq in Hv. lia.
  - assert (Er : @ret P (list nat) [] w = (w, Ok [])) by reflexivity. rewrite (bind_ok _ _ _ _ _ _ Er). apply K; [reflexivity|constructor|intros v []].
Qed.
Theorem VD_reach ok v : reaches P ptrue peqb ok v -> VD v.
Proof.
  intros (ks & p & He & Hv). assert (K : WF v /\ VD v); [|apply K].
  eapply (visits_inv P ptrue peqb (fun w => WF w /\ VD w) (fun _ _ => True)); [..|exact Hv]; auto using executes_true.
  - intros w x _ [W V]. split; [now apply WF_call|now apply VD_call].
  - intros c w [W V]. split; [now apply WF_context|]. eapply VD_from; [apply VS_context, VS_refl|exact V].
  - intros a w [W V]. split; [now apply WF_enter|]. eapply VD_from; [apply VS_enter, VS_refl|exact V].
  - intros a w [W V]. split; [now apply WF_exit|]. eapply VD_from; [apply VS_exit, VS_refl|exact V].
  - intros b e w [W V]. split; [now apply WF_frozen|]. eapply VD_from; [apply VS_frozen, VS_refl|exact V].
  - split; [apply WF_start|]. split; [intros [|c]; discriminate|intros [|c]; discriminate].
Qed.

(** ** No variables in the operations of a circuit without parameters *)
Definition isnum (p : param P) : Prop := match p with PNum _ => True | PVar _ => False end.
Definition NV (w : world) : Prop := forall c x o y k, nth_error (w_circ w) c = Some x -> c_par x = false -> In o (c_ops x) ->
  nth_error (w_op w) o = Some y -> nth_error (w_cls w) (o_cls y) = Some k -> k_kind k = KParam -> Forall isnum (o_params y).

Lemma NV_same (w w' : world) : w_circ w' = w_circ w -> w_op w' = w_op w -> w_cls w' = w_cls w -> NV w -> NV w'.
Proof. intros H H' H'' F. unfold NV. now rewrite H, H', H''. Qed.
Lemma NV_put (w : world) c x y : nth_error (w_circ w) c = Some x -> c_par y = c_par x -> incl (c_ops y) (c_ops x) -> NV w -> NV (set_circ w (set_nth c y (w_circ w))).
Proof.
  intros E Hp H F d z o u k Ez Hz Ho Eu Ek. cbn in *. destruct (nth_set_nth_inv (w_circ w) c x y d z E Ez) as [(e & ->)|(_ & Ez')]; [rewrite e in *|eauto].
  rewrite Hp in Hz. eapply F; eauto.
Qed.
Lemma NV_quiet (w : world) c x f : quiet_upd f -> nth_error (w_circ w) c = Some x -> NV w -> NV (set_circ w (set_nth c (f x) (w_circ w))).
Proof. intros Hf E. destruct (Hf x) as (H1 & _ & _ & H2 & _). apply NV_put with x; [exact E|exact H2|]. rewrite H1. apply incl_refl. Qed.
Lemma NV_new (w : world) par : NV w -> NV (set_circ w (w_circ w ++ [mkCirc [] (mkSide [] None) (mkSide [] None) false None par [] false])).
Proof.
  intros F d z o u k Ez Hz Ho Eu Ek. cbn in *. destruct (Nat.lt_ge_cases d (List.length (w_circ w))) as [L|L].
  - rewrite nth_error_app1 in Ez by exact L. eauto.
  - rewrite nth_error_app2 in Ez by exact L. destruct (d - List.length (w_circ w)) as [|n]; cbn in Ez; [injection Ez as <-; destruct Ho|destruct n; discriminate].
Qed.
Lemma NV_settle (w : world) k x a b : nth_error (w_cls w) k = Some x -> k_kind x = KCtrl \/ k_kind x = KParCtrl ->
  nonzero (k_numq x) = false -> k_ncontrol x = Some (S a) -> k_ntarget x = Some (S b) -> NV w ->
  NV (set_cls w (set_nth k (mkCls (k_name x) (k_kind x) (Some (S a + S b)) (k_ncontrol x) (k_ntarget x) (k_nparams x)) (w_cls w))).
Proof.
  intros E Hk _ _ _ F c z o y k' Ez Hz Ho Ey Ek Kk. cbn in *.
  match type of Ek with nth_error (set_nth _ ?t _) _ = _ => destruct (nth_set_nth_inv (w_cls w) k x t _ k' E Ek) as [(e & ->)|(_ & Ek')] end; [|eapply F; eauto].
  cbn in Kk. destruct Hk; congruence.
Qed.
Lemma NV_op (w : world) o y y' : nth_error (w_op w) o = Some y -> o_cls y' = o_cls y -> (Forall isnum (o_params y) -> Forall isnum (o_params y')) ->
  NV w -> NV (set_op w (set_nth o y' (w_op w))).
Proof.
  intros E Hc H F d z n u k Ez Hz Hn Eu Ek Kk. cbn in *. destruct (nth_set_nth_inv (w_op w) o y y' n u E Eu) as [(e & ->)|(_ & Eu')]; [rewrite e in *|eauto].
  apply H. eapply F; eauto. congruence.
Qed.
Lemma NV_upd o f : (forall y : opobj P, o_cls (f y) = o_cls y /\ o_params (f y) = o_params y) -> inv NV (@upd_op P o f).
Proof.
  intros H w F. destruct (nth_error (w_op w) o) as [y|] eqn:E.
  - rewrite (upd_op_run P o f w y E). cbn. destruct (H y) as [H1 H2]. eapply NV_op; eauto. now rewrite H2.
  - unfold upd_op, mbind, get_op. rewrite E. exact F.
Qed.
Lemma eval_num (w : world) g ps : forall i, Forall isnum ps -> Forall isnum (fst (eval_loop ptrue w i g ps)).
Proof.
  induction ps as [|p ps IH]; intros i F; cbn [eval_loop]; [constructor|]. inversion F as [|? ? H1 H2]; subst. destruct p as [z|v]; [|destruct H1].
  specialize (IH (S i) H2). destruct (eval_loop ptrue w (S i) g ps). cbn in *. now constructor.
Qed.
Lemma NV_eval o g : inv NV (@op_eval P ptrue o g).
Proof.
  intros w F. unfold op_eval, get_op, mbind, read, put_op, lift. destruct (nth_error (w_op w) o) as [y|] eqn:E; cbn; [|exact F].
  destruct (snd (eval_loop ptrue w 0 g (o_params y))); cbn; eapply NV_op; eauto; cbn; apply eval_num.
Qed.
Lemma NV_evals g os : forall i, inv NV (@eval_ops P ptrue i g os).
Proof.
  induction os as [|o os IH]; intros i; cbn [eval_ops]; [apply inv_ret|].
  apply inv_bind. { destruct g; [apply inv_ret|]. destruct (nth_error _ i); [apply inv_ret|apply inv_raise]. }
  intros g'. apply inv_bind; [apply inv_get_op|]. intros x. apply inv_bind; [apply inv_get_cls|]. intros k.
  apply inv_bind; [|intros _; apply IH]. destruct (has_params (k_kind k)); cbn [when]; [apply NV_eval|apply inv_ret].
Qed.
Lemma NV_call x : building P x = false -> no_append P x -> inv NV (do_call x).
Proof.
  intros Hb Hn. assert (I1 := NV_quiet). assert (I2 := NV_new). assert (I3 := NV_settle).
  destruct x; try discriminate Hb; cbn [WorldModel.do_call]; simpl in Hn; try contradiction; try apply inv_unit_of;
    try (first [apply inv_new_circuit|apply inv_new_qubit|apply inv_new_bit|apply inv_new_var|apply inv_add_qubit|apply inv_add_bit|apply inv_add_qregister|apply inv_add_cregister
      |apply inv_qreg_add|apply inv_creg_add|apply inv_qreg_freeze|apply inv_creg_freeze|apply inv_get_qubit|apply inv_get_bit
      |apply inv_find_qubit|apply inv_find_bit|apply inv_qubits|apply inv_bits|apply inv_bit_set|apply inv_bit_reset
      |apply inv_cls_num_qubits]; eauto; intros; eapply NV_same; eauto; reflexivity).
  - apply inv_lock. intros w d0 x E. apply NV_put with x; auto. apply incl_refl.
  - apply inv_unlock; [exact I1|]. intros w d0 x E. apply NV_put with x; auto. apply incl_refl.
  - apply inv_reset; auto; intros w d0 x E; apply NV_put with x; auto; [apply incl_refl|intros ? []].
  - apply inv_var_put. intros w v0 s y p _ Hi. exact Hi.
  - unfold set_qubits. apply inv_bind; [apply inv_get_op|]. intros x. apply inv_bind; [apply inv_check_qubits; exact I3|]. intros _. now apply NV_upd.
  - apply NV_upd. auto.
  - intros w F. unfold store, get_op, get_cls, put_op, mbind. destruct (nth_error (w_op w) o) as [y|] eqn:E; cbn; [|exact F].
    destruct (nth_error (w_cls w) (o_cls y)) as [k|]; cbn; [|exact F]. destruct (k_kind k); try exact F. destruct (o_numq y); [|exact F].
    match goal with |- context [if ?b then _ else _] => destruct b end; [exact F|]. cbn. eapply NV_op; eauto.
  - apply NV_eval.
  - apply inv_remove. intros w d0 x i E. apply NV_put with x; auto. intros z. apply in_del_nth.
  - apply inv_get_param.
    + intros w s Hi. exact Hi.
    + intros w d0 x vs E _ Hi. eapply NV_put; eauto. apply incl_refl.
  - unfold eval_circuit. apply inv_bind; [apply inv_get_circ|]. intros x. destruct (negb (c_par x)); [apply inv_raise|apply NV_evals].
  - apply inv_reset_variables. intros w v0 s y _ Hi. exact Hi.
Qed.
Lemma NV_context c : inv NV (@context P c).
Proof.
  intros w Hi. unfold context, mbind, get_circ. destruct (nth_error (w_circ w) c) as [x|] eqn:E; cbn; [|exact Hi].
  destruct (c_ctx x) eqn:Ec; cbn; [exact Hi|]. apply (NV_put (set_ctx w _) c x); auto. apply incl_refl.
Qed.
Lemma NV_enter a : inv NV (@ctx_enter P a).
Proof.
  unfold ctx_enter. apply inv_bind; [apply inv_get_ctx|]. intros cx. apply inv_bind; [apply inv_get_circ|]. intros x.
  destruct (c_locked x); [apply inv_raise|]. apply inv_bind; [apply inv_read|]. intros [b|]; [apply inv_raise|].
  apply inv_bind; [intros w Hi; exact Hi|]. intros _. apply inv_ctx_enter_views. exact NV_quiet.
Qed.
Lemma NV_exit a : inv NV (@ctx_exit P a).
Proof.
  unfold ctx_exit. apply inv_bind; [apply inv_get_ctx|]. intros cx.
  apply inv_bind. { apply inv_upd_circ; [exact NV_quiet|]. intros x. destruct (c_par x) eqn:E; cbn; rewrite ?E; auto. }
  intros _. apply inv_bind; [intros w Hi; exact Hi|].
  intros _. apply inv_bind; [apply inv_read|]. intros fs. apply inv_bind.
  { apply inv_iterM; intros. apply inv_reset_variables. intros w v0 s y _ Hi. exact Hi. }
  intros _. apply inv_bind; [intros w Hi; exact Hi|].
  intros _. apply inv_lock. intros w d x E V. eapply NV_put; eauto. apply incl_refl.
Qed.
Lemma NV_frozen b e : inv NV (@set_frozen P b e).
Proof.
  unfold set_frozen. apply inv_bind; [apply inv_read|]. intros [a|]; [|apply inv_raise].
  intros w Hi. unfold mbind, get_ctx. destruct (nth_error (w_ctx w) a); cbn; exact Hi.
Qed.

Lemma stands_num (w : world) ps ps' : Forall2 (stands_for P ptrue w) ps ps' -> Forall isnum ps'.
Proof.
  induction 1 as [|p q ps ps' H _ IH]; [constructor|]. constructor; [|exact IH].
  destruct p; cbn in H; [subst q; exact I|]. destruct H as (s & z & _ & _ & ->). exact I.
Qed.
Lemma cls_len x (w : world) : List.length (w_cls (fst (do_call x w))) = List.length (w_cls w).
Proof.
  assert (K : inv (fun v => List.length (w_cls v) = List.length (w_cls w)) (do_call x)); [|now apply K].
  destruct (tame P x) eqn:T.
  - apply inv_do_call; auto. intros. cbn. now rewrite set_nth_length.
  - destruct x; try discriminate T; cbn [WorldModel.do_call].
    + apply inv_lock; auto.
    + apply inv_unlock; auto.
    + apply inv_reset; auto.
    + apply inv_var_put; auto.
    + apply inv_remove; auto.
    + apply inv_unit_of, inv_get_param; auto.
    + apply inv_call_parametric; auto. intros. cbn. now rewrite set_nth_length.
    + apply inv_reset_variables; auto.
Qed.
Lemma NV_build x (w : world) : building P x = true -> WF w -> NV w -> NV (fst (do_call x w)).
Proof.
  intros Hb W O. destruct (build_spec P ptrue peqb x w Hb W) as (vl & ex & j & zs & B). cbv zeta in B.
  destruct B as (Wu & _ & A & Eo & Lj & F). set (u := set_exit (set_var w vl) ex) in *.
  intros d x' o y k E Hp Ho Ey Ek Kk. destruct (nth_error (w_circ w) d) as [x0|] eqn:E0.
  2: { apply nth_error_None in E0. change (w_circ w) with (w_circ u) in E0. rewrite <- (ef_len _ _ _ _ A) in E0. apply nth_error_None in E0. congruence. }
  destruct (ef_circ _ _ _ _ A d x0 E0) as (x1 & E1 & vq & vb & R). rewrite E in E1. injection E1 as <-.
  assert (Hp0 : c_par x0 = false) by (rewrite R in Hp; exact Hp).
  assert (Ho' : In o (c_ops x0 ++ recs P u d (seq (List.length (w_op w)) j))) by (rewrite R in Ho; exact Ho).
  assert (Hk : forall i, i < List.length (w_cls w) -> nth_error (w_cls (fst (do_call x w))) i = Some k -> exists k0, nth_error (w_cls w) i = Some k0 /\ k_kind k0 = KParam).
  { intros i L Ei. apply nth_error_Some in L. destruct (nth_error (w_cls w) i) as [k0|] eqn:E2; [|congruence].
    destruct (ef_cls _ _ _ _ A i k0 E2) as (k1 & E3 & _ & S2 & _). exists k0. split; [reflexivity|]. congruence. }
  apply in_app_or in Ho'. rewrite Eo in Ey. destruct Ho' as [Ho'|Ho'].
  - pose proof (wf_ops _ _ W d x0 o E0 Ho') as L. rewrite nth_error_app1 in Ey by exact L.
    destruct (Hk (o_cls y)) as (k0 & Ek0 & Kk0); [eapply wf_cls; eauto|exact Ek|]. eapply O; eauto.
  - unfold recs in Ho'. destruct (recording P u) as [c|] eqn:Er; [|destruct Ho'].
    destruct (Nat.eqb c d) eqn:Ecd; [|destruct Ho']. apply Nat.eqb_eq in Ecd. subst c. apply in_seq in Ho'.
    rewrite nth_error_app2 in Ey by lia.
    assert (Hy : In y (firstn j zs)).
    { rewrite <- (firstn_skipn j zs) in Ey. rewrite nth_error_app1 in Ey by (rewrite firstn_length; lia). eapply nth_error_In; eauto. }
    rewrite Forall_forall in F. destruct (F y Hy) as [_ Fr].
    assert (L : o_cls y < List.length (w_cls w)).
    { rewrite <- (cls_len x w). apply nth_error_Some. congruence. }
    destruct (Hk (o_cls y) L Ek) as (k0 & Ek0 & Kk0). destruct (Fr k0 Ek0 Kk0) as (ps & Rs). unfold resolved in Rs. rewrite Er in Rs.
    destruct Rs as (x2 & Ex2 & Rs). change (w_circ u) with (w_circ w) in Ex2. rewrite E0 in Ex2. injection Ex2 as <-. unfold parametric in Rs. rewrite Hp0 in Rs.
    cbn in Rs. eapply stands_num; eauto.
Qed.
Lemma NV_append c o : inv (fun w => WF w /\ NV w) (append_op ptrue c o).
Proof.
  intros w [W O]. split; [apply (WF_call P ptrue peqb (CAppend P c o)); auto|].
  destruct (nth_error (w_circ w) c) as [x|] eqn:E.
  2: { unfold append_op. now rewrite (bind_err _ _ _ _ _ _ (get_circ_none P c w E)). }
  destruct (nth_error (w_op w) o) as [y|] eqn:Eo.
  2: { unfold append_op. rewrite (bind_ok _ _ _ _ _ _ (get_circ_some P c w x E)). destruct (c_locked x); [exact O|].
       unfold mbind, get_op. rewrite Eo. exact O. }
  destruct (nth_error (w_cls w) (o_cls y)) as [k|] eqn:Ek.
  2: { unfold append_op. rewrite (bind_ok _ _ _ _ _ _ (get_circ_some P c w x E)). destruct (c_locked x); [exact O|].
       unfold mbind, get_op, get_cls. rewrite Eo. cbn. rewrite Ek. exact O. }
  destruct (append_run P ptrue w c x o y k E Eo Ek) as (v & ps & l & Eq & _ & B).
  assert (Hps : Forall isnum (o_params y) -> Forall isnum ps).
  { intros H. assert (K : inv (fun v => forall z, nth_error (w_op v) o = Some z -> Forall isnum (o_params z)) (append_op ptrue c o)).
    - unfold append_op. apply inv_bind; [apply inv_get_circ|]. intros x'. destruct (c_locked x'); [apply inv_raise|].
      apply inv_bind; [apply inv_get_op|]. intros y'. apply inv_bind; [apply inv_get_cls|]. intros k'. apply inv_bind.
      { match goal with |- context [when ?b _] => destruct b end; cbn [when]; [|apply inv_ret].
        intros u Hu. unfold op_eval, get_op, mbind, read, put_op, lift. destruct (nth_error (w_op u) o) as [yu|] eqn:Eu; cbn; [|rewrite Eu; discriminate].
        specialize (Hu yu eq_refl). destruct (snd (eval_loop ptrue u 0 None (o_params yu))); cbn; erewrite set_nth_same by exact Eu; intros z [= <-]; now apply eval_num. }
      intros _. apply inv_bind; [|intros _ u Hu; unfold upd_circ, get_circ, put_circ, mbind; destruct (nth_error (w_circ u) c); exact Hu].
      apply inv_iterM. intros q. unfold check_own. apply inv_bind; [apply inv_qubits; intros u d z f _ _ Hu; exact Hu|].
      intros r. apply inv_bind; [apply inv_lift|]. intros b. destruct b; [apply inv_ret|apply inv_raise].
    - specialize (K w). cbn beta in K. rewrite Eq in K. cbn in K. erewrite set_nth_same in K by exact Eo. apply (fun A => K A _ eq_refl). intros z Ez. congruence. }
  rewrite Eq. intros d z n u k' Ez Hz Hn Eu Ek' Kk. cbn in *.
  assert (Hu : exists u0, nth_error (w_op w) n = Some u0 /\ o_cls u = o_cls u0 /\ (Forall isnum (o_params u0) -> Forall isnum (o_params u)) /\ (n = o -> u0 = y /\ o_params u = ps)).
  { destruct (nth_set_nth_inv (w_op w) o y (with_oparams y ps) n u Eo Eu) as [(e & ->)|(n' & Eu')].
    - exists y. split; [congruence|]. split; [reflexivity|]. split; [exact Hps|]. auto.
    - exists u. split; [exact Eu'|]. split; [reflexivity|]. split; [auto|]. intros; congruence. }
  destruct Hu as (u0 & Eu0 & Hc & Hi & Hy). rewrite Hc in Ek'.
  match type of Ez with nth_error (set_nth _ ?t _) _ = _ => destruct (nth_set_nth_inv (w_circ w) c x t d z E Ez) as [(e & ->)|(_ & Ez')] end; [|apply Hi; eapply O; eauto].
  cbn in Hn, Hz. apply in_app_or in Hn. destruct Hn as [Hn|Hn]; [apply Hi; eapply O; eauto|].
  destruct (snd (append_op ptrue c o w)); [|subst l; destruct Hn]. destruct B as (-> & _ & _ & B). destruct Hn as [<-|[]].
  destruct (Hy eq_refl) as [-> ->]. assert (k' = k) by congruence. subst k'. unfold parametric in B. rewrite Hz, Kk in B. cbn in B. eapply stands_num; eauto.
Qed.
Theorem NV_reach ok v : reaches P ptrue peqb ok v -> NV v.
Proof.
  intros (ks & p & He & Hv). assert (K : WF v /\ NV v); [|apply K].
  eapply (visits_inv P ptrue peqb (fun w => WF w /\ NV w) (fun _ _ => True)); [..|exact Hv]; auto using executes_true.
  - intros w x _ [W V]. destruct (building P x) eqn:Hb; [split; [now apply WF_call|now apply NV_build]|].
    assert (D : no_append P x \/ ~ no_append P x) by (destruct x; simpl; auto). destruct D as [D|D].
    + split; [now apply WF_call|now apply NV_call].
    + destruct x; try (exfalso; apply D; exact I); cbn [WorldModel.do_call]; [now apply NV_append|].
      unfold extend_ops. apply inv_iterM; [|auto]. intros a. apply NV_append.
  - intros c w [W V]. split; [now apply WF_context|now apply NV_context].
  - intros a w [W V]. split; [now apply WF_enter|now apply NV_enter].
  - intros a w [W V]. split; [now apply WF_exit|now apply NV_exit].
  - intros b e w [W V]. split; [now apply WF_frozen|now apply NV_frozen].
  - split; [apply WF_start|]. intros [|c]; discriminate.
Qed.
End Vars.

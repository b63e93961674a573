(** As long as nobody replaces the qubits of a controlled operation, they are its control and its target: proofs for
    C73. *)
From Coq Require Import List ZArith String Bool Arith Lia.
From Verif Require Import Py RegisterModel RegisterSpec WorldModel WorldSpec WorldSpec3 WorldSpec4 WorldReg WorldInv WorldInv2 WorldInv3 WorldInv4 WorldInv5 WorldInv6 WorldInv7 WorldWf WorldWf2 WorldWf3 WorldOps WorldCtx3 WorldBuild WorldReplay MakeSpec MakeProofs MakeProofs2.
Import ListNotations.
Local Open Scope nat_scope.

Section Again.
Variable P : Type.
Variable ptrue : P -> bool.
Variable peqb : P -> P -> bool.
Notation world := (world P).
Notation M := (M P).
Notation do_call := (do_call ptrue peqb).
Notation inv := (inv P).
(** Qubits that are control and target together. *)
Definition joined (x : cls) (ctl tgt qs : option (list item)) : Prop :=
  (controlled (k_kind x) -> forall m l, k_ncontrol x = Some m -> qs = Some l ->
   exists c t, ctl = Some c /\ tgt = Some t /\ l = c ++ t /\ (0 < m -> c <> []) /\ (m < List.length l -> t <> [])) /\
  (~ controlled (k_kind x) -> ctl = None /\ tgt = None).
Definition SI (w : world) : Prop :=
  forall o y x, nth_error (w_op w) o = Some y -> nth_error (w_cls w) (o_cls y) = Some x -> joined x (o_control y) (o_target y) (o_qubits y).
Definition alike (y y' : opobj P) : Prop :=
  o_cls y' = o_cls y /\ o_qubits y' = o_qubits y /\ o_control y' = o_control y /\ o_target y' = o_target y.

Lemma SI_same (w w' : world) : w_op w' = w_op w -> w_cls w' = w_cls w -> SI w -> SI w'.
Proof. intros H1 H2 F. unfold SI. now rewrite H1, H2. Qed.
Lemma SI_op (w : world) o y y' : nth_error (w_op w) o = Some y ->
  alike y y' \/ (forall x, nth_error (w_cls w) (o_cls y') = Some x -> joined x (o_control y') (o_target y') (o_qubits y')) ->
  SI w -> SI (set_op w (set_nth o y' (w_op w))).
Proof.
  intros E Hq F m u x Eu Ex. cbn in Eu, Ex.
  destruct (nth_set_nth_inv (w_op w) o y y' m u E Eu) as [(e & ->)|(_ & Eu')]; [|eapply F; eauto].
  destruct Hq as [(H1 & H2 & H3 & H4)|Hq]; [|now apply Hq]. rewrite H2, H3, H4. rewrite H1 in Ex. eapply F; eauto.
Qed.
Lemma SI_settle (w : world) k x a b : nth_error (w_cls w) k = Some x -> k_kind x = KCtrl \/ k_kind x = KParCtrl ->
  nonzero (k_numq x) = false -> k_ncontrol x = Some (S a) -> k_ntarget x = Some (S b) -> SI w ->
  SI (set_cls w (set_nth k (mkCls (k_name x) (k_kind x) (Some (S a + S b)) (k_ncontrol x) (k_ntarget x) (k_nparams x)) (w_cls w))).
Proof.
  intros E _ _ _ _ F o y z Ey Ez. cbn in Ey, Ez.
  destruct (nth_set_nth_inv (w_cls w) k x _ _ z E Ez) as [(e & ->)|(_ & Ez')]; [|eapply F; eauto].
  rewrite <- e in *. exact (F o y x Ey ltac:(congruence)).
Qed.
Lemma SI_circ (w : world) l : SI w -> SI (set_circ w l). Proof. exact (fun H => H). Qed.
Lemma SI_upd o f : (forall y : opobj P, alike y (f y)) -> inv SI (@upd_op P o f).
Proof.
  intros H w F. destruct (nth_error (w_op w) o) as [y|] eqn:E.
  - rewrite (upd_op_run P o f w y E). cbn. eapply SI_op; eauto.
  - unfold upd_op, get_op, mbind. rewrite E. exact F.
Qed.
Lemma SI_eval o g : inv SI (@op_eval P ptrue o g).
Proof.
  intros w F. unfold op_eval, get_op, mbind, read, put_op, lift. destruct (nth_error (w_op w) o) as [y|] eqn:E; cbn; [|exact F].
  destruct (snd (eval_loop ptrue w 0 g (o_params y))); cbn; (eapply SI_op; [exact E|left; repeat split|exact F]).
Qed.
Lemma SI_store o bs : inv SI (@store P o bs).
Proof.
  intros w F. unfold store, get_op, get_cls, put_op, mbind. destruct (nth_error (w_op w) o) as [y|] eqn:E; cbn [the ret raise fst snd]; [|exact F].
  destruct (nth_error (w_cls w) (o_cls y)) as [k|]; cbn [the ret raise fst snd]; [|exact F]. destruct (k_kind k); try exact F. destruct (o_numq y) as [m|] eqn:En; [|exact F].
  destruct (Nat.ltb (List.length bs) m) eqn:Lt; [exact F|]. cbn. eapply SI_op; [exact E|left; repeat split|exact F].
Qed.
Lemma SI_upd_circ c f : inv SI (@upd_circ P c f).
Proof.
  intros w Hi. destruct (nth_error (w_circ w) c) as [x|] eqn:E.
  - rewrite (upd_circ_run P c f w x E). exact Hi.
  - unfold upd_circ. rewrite (bind_err _ _ _ _ _ _ (get_circ_none P c w E)). exact Hi.
Qed.
Ltac si_step := first
  [ apply inv_ret | apply inv_raise | apply inv_lift | apply inv_read | apply inv_get_circ | apply inv_get_op | apply inv_get_cls
  | apply inv_get_ctx | apply inv_regget | apply inv_first_label | apply inv_star_args | apply inv_check_params
  | apply SI_store | apply SI_eval
  | apply inv_qubits; intros; now apply SI_circ | apply inv_bits; intros; now apply SI_circ
  | apply inv_when | apply inv_iterM; intros ?
  | match goal with |- WorldWf.inv _ _ (match ?b with _ => _ end) => destruct b end
  | apply inv_bind; [|intros ?] ].
Lemma SI_check_own c v : inv SI (@check_own P c v). Proof. unfold check_own. repeat si_step. Qed.
Lemma SI_append c o : inv SI (append_op ptrue c o).
Proof. unfold append_op. repeat first [apply SI_check_own|apply SI_upd_circ|si_step]. Qed.
Lemma SI_check k qs : inv SI (@check_qubits P k qs).
Proof. apply inv_check_qubits. exact SI_settle. Qed.

(** ** Construction *)
Lemma SI_init (w : world) k x o y qs : SI w -> nth_error (w_op w) o = Some y -> o_cls y = k -> nth_error (w_cls w) k = Some x ->
  joined x (o_control y) (o_target y) qs -> SI (fst (op_init ptrue k o qs w)).
Proof.
  intros Hw Eo Ec Ek Hj. unfold op_init. rewrite (read_bind P).
  match goal with |- SI (fst (mbind ?m ?f w)) => set (pre := m); assert (Hf : forall u, inv SI (f u)) end.
  { intros u. destruct (w_active w) as [a|]; [|apply inv_ret]. apply inv_bind; [apply inv_get_ctx|]. intros cx. destruct (snd cx); [apply inv_ret|]. apply SI_append. }
  assert (Hp : SI (fst (pre w))).
  { unfold pre. destruct qs as [l|].
    - pose proof (SI_check k l w Hw) as Hc. destruct (effect_check P k l w) as (A & B & _). destruct (check_qubits k l w) as [v [[]|e]] eqn:Eq; cbn [fst] in *;
        [rewrite (bind_ok _ _ _ _ _ _ Eq)|rewrite (bind_err _ _ _ _ _ _ Eq); exact Hc].
      destruct (ef_cls _ _ _ _ A k x Ek) as (x' & E' & S').
      assert (G : get_cls k v = (v, Ok x')) by (unfold get_cls; now rewrite E'). rewrite (bind_ok _ _ _ _ _ _ G). rewrite <- B in Eo.
      rewrite (upd_op_run P o _ v y Eo). cbn [fst]. apply (SI_op v o y _ Eo); [|exact Hc]. right. cbn. rewrite Ec. intros z Ez. rewrite E' in Ez. injection Ez as <-.
      destruct S' as (S1 & S2 & S3 & _). unfold joined in *. now rewrite S2, S3.
    - destruct (w_active w); [exact Hw|]. assert (G : get_cls k w = (w, Ok x)) by (unfold get_cls; now rewrite Ek). rewrite (bind_ok _ _ _ _ _ _ G).
      rewrite (upd_op_run P o _ w y Eo). cbn [fst]. apply (SI_op w o y _ Eo); [|exact Hw]. right. cbn. rewrite Ec. intros z Ez. rewrite Ek in Ez. injection Ez as <-. exact Hj. }
  destruct (pre w) as [v [u|e]] eqn:Ep; [rewrite (bind_ok _ _ _ _ _ _ Ep); now apply Hf|rewrite (bind_err _ _ _ _ _ _ Ep); exact Hp].
Qed.
Lemma split_joined x a : controlled (k_kind x) -> joined x (fst (fst (split_args x a))) (snd (fst (split_args x a))) (snd (split_args x a)).
Proof.
  intros K. split; [|contradiction]. intros _ m l Hm Hl. pose proof (split_parts x a) as H.
  destruct (split_args x a) as [[ctl tgt] qs]. cbn [fst snd] in *. subst qs. rewrite Hm in H. inversion H; subst; try congruence.
  - match goal with E : Some _ = Some _ |- _ => injection E as <- end. eexists _, _. do 3 (split; [reflexivity|]). split.
    + intros Hp ->. cbn in *. destruct t; [congruence|cbn in *; lia].
    + intros Hp ->. rewrite app_nil_r in *. lia.
  - eexists _, _. auto 6.
Qed.
Lemma SI_new (w : world) y : o_qubits y = None -> (forall x, nth_error (w_cls w) (o_cls y) = Some x -> ~ controlled (k_kind x) -> o_control y = None /\ o_target y = None) -> SI w -> SI (set_op w (w_op w ++ [y])).
Proof.
  intros Hq Hn Hw m u x Em Ex. cbn in Em, Ex. destruct (Nat.lt_ge_cases m (List.length (w_op w))) as [L|L].
  - rewrite nth_error_app1 in Em by exact L. eapply Hw; eauto.
  - rewrite nth_error_app2 in Em by exact L. destruct (m - List.length (w_op w)) as [|[|i]]; cbn in Em; try discriminate. injection Em as <-.
    split; [intros _ n l _ Hl; congruence|now apply Hn].
Qed.
Lemma SI_construct k ps a : inv SI (construct ptrue k ps a).
Proof.
  intros w Hw. unfold construct. unfold mbind at 1, get_cls.
  destruct (nth_error (w_cls w) k) as [x|] eqn:E; cbn [the ret raise]; [|exact Hw].
  rewrite (read_bind P). unfold mbind at 1. cbv beta iota.
  set (o := List.length (w_op w)).
  assert (UE : forall y f, upd_op o f (set_op w (w_op w ++ [y])) = (set_op w (w_op w ++ [f y]), Ok tt)) by (intros y f; apply upd_end).
  assert (A0 : forall y, o_qubits y = None -> o_cls y = k -> (~ controlled (k_kind x) -> o_control y = None /\ o_target y = None) -> SI (set_op w (w_op w ++ [y]))).
  { intros y H1 H2 H3. apply SI_new; auto. intros z Ez. rewrite H2, E in Ez. injection Ez as <-. exact H3. }
  assert (I : forall y qs, o_qubits y = None -> o_cls y = k -> joined x (o_control y) (o_target y) qs -> SI (fst (op_init ptrue k o qs (set_op w (w_op w ++ [y]))))).
  { intros y qs H1 H2 H3. apply (SI_init (set_op w (w_op w ++ [y])) k x o y qs); auto; [apply A0; auto; apply H3|cbn; apply nth_end]. }
  assert (J : forall y l qs, o_qubits y = None -> o_cls y = k -> joined x (o_control y) (o_target y) qs -> SI (fst (par_init ptrue x k o l qs (set_op w (w_op w ++ [y]))))).
  { intros y l qs H1 H2 H3. unfold par_init, check_params. destruct (k_nparams x) as [n|]; [|apply A0; auto; apply H3].
    destruct (Nat.eqb (List.length l) n); [|apply A0; auto; apply H3]. unfold mbind at 1. cbn [ret]. unfold mbind. rewrite UE. now apply I. }
  assert (N : ~ controlled (k_kind x) -> forall q, joined x None None q) by (intros K q; split; [contradiction|auto]).
  assert (Last : forall m : M unit, SI (fst (m (set_op w (w_op w ++ [mkOp k None (k_numq x) [] None None None None])))) ->
    SI (fst (mbind m (fun _ => ret o) (set_op w (w_op w ++ [mkOp k None (k_numq x) [] None None None None]))))).
  { intros m H. unfold mbind, ret. destruct (m _) as [v [r|e]]; exact H. }
  apply Last. clear Last. unfold controlled in N.
  pose proof (split_joined x a) as Hs.
  unfold controlled in Hs. assert (A1 : SI (set_op w (w_op w ++ [mkOp k None (k_numq x) [] None None None None]))) by (apply A0; auto).
  destruct (k_kind x), ps, a; try exact A1;
    try (first [apply I|apply J]; [reflexivity|reflexivity|apply N; intros [K|K]; discriminate]);
    destruct (split_args x _) as [[ctl tgt] ql]; cbn [fst snd] in Hs; specialize (Hs ltac:(tauto)); unfold mbind at 1; rewrite UE; cbv beta iota; try (apply I; auto; fail).
  all: match goal with |- SI (fst (mbind ?m ?f ?u)) => assert (Hm : SI (fst (m u))) by (apply J; auto); assert (Hf : forall t, inv SI (f t)) by (intros ?; apply SI_upd; intros ?; repeat split);
     destruct (m u) as [v [r|e]] eqn:Ep; [rewrite (bind_ok _ _ _ _ _ _ Ep); now apply Hf|rewrite (bind_err _ _ _ _ _ _ Ep); exact Hm] end.
Qed.

(** ** Every call *)
Lemma SI_call_op o a : inv SI (call_op ptrue o a). Proof. unfold call_op. repeat first [apply SI_construct|si_step]. Qed.
Lemma SI_replay qm bm o : inv SI (replay ptrue qm bm o). Proof. unfold replay. repeat first [apply SI_construct|si_step]. Qed.
Lemma SI_call_circuit t qs ba : inv SI (call_circuit ptrue t qs ba).
Proof. unfold call_circuit. repeat first [apply SI_replay|si_step]. Qed.
Lemma SI_set_vars vs : forall ps, inv SI (@set_vars P vs ps).
Proof. intros ps. apply inv_set_vars. intros w v s y p _ Hi. exact Hi. Qed.
Lemma SI_evals g os : forall i, inv SI (@eval_ops P ptrue i g os).
Proof. induction os as [|o os IH]; intros i; cbn [eval_ops]; repeat first [apply IH|si_step]. Qed.
Lemma SI_call x : ~ sets_qubits P x -> inv SI (do_call x).
Proof.
  intros Hn.
  assert (I1 : forall (w : world) c x f, quiet_upd f -> nth_error (w_circ w) c = Some x -> SI w -> SI (set_circ w (set_nth c (f x) (w_circ w)))) by (intros; now apply SI_circ).
  assert (I2 := SI_settle).
  destruct x; cbn [WorldModel.do_call]; try apply inv_unit_of;
    try (first [apply inv_new_circuit|apply inv_new_qubit|apply inv_new_bit|apply inv_new_var|apply inv_add_qubit|apply inv_add_bit|apply inv_add_qregister|apply inv_add_cregister
      |apply inv_qreg_add|apply inv_creg_add|apply inv_qreg_freeze|apply inv_creg_freeze|apply inv_get_qubit|apply inv_get_bit
      |apply inv_find_qubit|apply inv_find_bit|apply inv_qubits|apply inv_bits|apply inv_bit_set|apply inv_bit_reset
      |apply inv_cls_num_qubits]; eauto; intros; eapply SI_same; eauto; reflexivity).
  - apply inv_lock. intros. now apply SI_circ.
  - apply SI_upd_circ.
  - unfold reset, unlock. apply inv_bind; [apply SI_upd_circ|]. intros _. apply inv_bind; [|intros _; apply SI_upd_circ].
    destruct keep; [|apply SI_upd_circ]. repeat first [apply inv_item_reset; intros u b l0 y y' _ Hu; exact Hu|si_step].
  - apply inv_var_put. intros w v0 s y p _ Hi. exact Hi.
  - apply SI_construct.
  - apply SI_call_op.
  - destruct Hn. exact I.
  - apply SI_upd. intros y. repeat split.
  - apply SI_store.
  - apply SI_eval.
  - apply SI_append.
  - unfold extend_ops. apply inv_iterM. intros a. apply SI_append.
  - unfold remove_op. apply inv_bind; [apply inv_get_circ|]. intros x. apply inv_bind; [|intros i; apply SI_upd_circ].
    intros w Hi. pose proof (inv_index_of P ptrue peqb (fun u => u = w) (c_ops x) o 0 w eq_refl) as K. cbn beta in K. rewrite K. exact Hi.
  - apply inv_get_param.
    + intros w s Hi. exact Hi.
    + intros w d0 x vs E _ Hi. exact Hi.
  - unfold call_plain. repeat first [apply SI_call_circuit|si_step].
  - unfold call_parametric. repeat first [apply SI_call_circuit|apply SI_set_vars|si_step]. intros w H. exact H.
  - unfold eval_circuit. repeat first [apply SI_evals|si_step].
  - apply inv_reset_variables. intros w v0 s y _ Hi. exact Hi.
Qed.
Lemma SI_context c : inv SI (@context P c).
Proof.
  intros w Hi. unfold context, mbind, get_circ. destruct (nth_error (w_circ w) c) as [x|] eqn:E; cbn; [|exact Hi].
  destruct (c_ctx x) eqn:Ec; cbn; exact Hi.
Qed.
Lemma SI_enter a : inv SI (@ctx_enter P a).
Proof.
  unfold ctx_enter. apply inv_bind; [apply inv_get_ctx|]. intros cx. apply inv_bind; [apply inv_get_circ|]. intros x.
  destruct (c_locked x); [apply inv_raise|]. apply inv_bind; [apply inv_read|]. intros [b|]; [apply inv_raise|].
  apply inv_bind; [intros w Hi; exact Hi|]. intros _. apply inv_ctx_enter_views. intros; now apply SI_circ.
Qed.
Lemma SI_exit a : inv SI (@ctx_exit P a).
Proof.
  unfold ctx_exit. apply inv_bind; [apply inv_get_ctx|]. intros cx. apply inv_bind; [apply SI_upd_circ|].
  intros _. apply inv_bind; [intros w Hi; exact Hi|].
  intros _. apply inv_bind; [apply inv_read|]. intros fs. apply inv_bind.
  { apply inv_iterM; intros. apply inv_reset_variables. intros w v0 s y _ Hi. exact Hi. }
  intros _. apply inv_bind; [intros w Hi; exact Hi|].
  intros _. apply inv_lock. intros; now apply SI_circ.
Qed.
Lemma SI_frozen b e : inv SI (@set_frozen P b e).
Proof.
  unfold set_frozen. apply inv_bind; [apply inv_read|]. intros [a|]; [|apply inv_raise].
  intros w Hi. unfold mbind, get_ctx. destruct (nth_error (w_ctx w) a); cbn; exact Hi.
Qed.
Lemma joined_reach (v : world) : reaches P ptrue peqb (fun _ x => ~ sets_qubits P x) v -> SI v.
Proof.
  intros (ks & p & He & Hv). assert (A : SI (start P ks)) by (intros [|m]; discriminate).
  refine (visits_inv P ptrue peqb SI (fun _ x => ~ sets_qubits P x) _ _ _ _ _ p _ v He A Hv); auto using SI_context, SI_enter, SI_exit, SI_frozen.
  intros u x Hn. now apply SI_call.
Qed.
Theorem called_again (v v' : world) o a o' y x l : reaches P ptrue peqb (fun _ z => ~ sets_qubits P z) v ->
  nth_error (w_op v) o = Some y -> nth_error (w_cls v) (o_cls y) = Some x -> no_args (k_kind x) a ->
  o_qubits y = Some l -> (controlled (k_kind x) -> exists m, k_ncontrol x = Some m /\ 0 < m < List.length l) ->
  call_op ptrue o a v = (v', Ok o') ->
  exists z, one_new P v v' o' z /\ o_cls z = o_cls y /\ o_qubits z = Some l /\ o_control z = o_control y /\ o_target z = o_target y.
Proof.
  intros R Ey Ex Hn Hl Hc H. pose proof (joined_reach v R o y x Ey Ex) as J.
  assert (R0 : reaches P ptrue peqb (fun _ _ => True) v) by (eapply reaches_impl; [|exact R]; auto).
  destruct (call_made P ptrue peqb v v' o a o' R0 H) as (y0 & x0 & a' & z & Ey0 & Ex0 & Ha & Z1 & [M1 M2 _ _ _]).
  rewrite Ey in Ey0. injection Ey0 as <-. rewrite Ex in Ex0. injection Ex0 as <-. exists z. split; [exact Z1|]. split; [exact M1|].
  destruct Ha as [q r K I|c t c' t' K I1 I2]; cbn in Hn.
  - destruct M2 as [[K' _]|(_ & [= <-] & -> & ->)]; [contradiction|]. destruct Hn as [_ Hb]. destruct I as [[_ ->]|[Nb _]]; [|contradiction].
    split; [exact Hl|]. destruct (proj2 J K) as [-> ->]. auto.
  - destruct Hn as (_ & B1 & B2). destruct I1 as [[_ ->]|[Nb _]]; [|contradiction]. destruct I2 as [[_ ->]|[Nb _]]; [|contradiction].
    destruct (Hc K) as (m & Hm & Hlt). destruct (proj1 J K m l Hm Hl) as (c1 & t1 & J1 & J2 & J3 & J4 & J5). rewrite J1, J2 in *.
    assert (c1 <> []) by (apply J4; lia). assert (t1 <> []) by (apply J5; lia). destruct M2 as [[_ M2]|[N _]]; [|contradiction].
    inversion M2; subst; auto; unfold blank in *; intuition congruence.
Qed.
End Again.

(** As long as nobody replaces the qubits of an operation, the number of qubits an operation reports is the
    number of its qubits. *)
From Coq Require Import List ZArith String Bool Arith Lia.
From Verif Require Import Py RegisterModel RegisterSpec WorldModel WorldSpec WorldSpec3 WorldSpec4 WorldReg WorldInv WorldInv2 WorldInv3 WorldInv4 WorldInv5 WorldWf WorldWf2 WorldWf3 WorldOps WorldCtx3 WorldBuild WorldReplay.
Import ListNotations.
Local Open Scope nat_scope.

Section Numq.
Variable P : Type.
Variable ptrue : P -> bool.
Variable peqb : P -> P -> bool.
Notation world := (world P).
Notation M := (M P).
Notation do_call := (do_call ptrue peqb).
Notation inv := (inv P).
Definition NI (w : world) : Prop :=
  forall o y qs, nth_error (w_op w) o = Some y -> o_qubits y = Some qs -> o_numq y = Some (List.length qs).

Lemma NI_same (w w' : world) : w_op w' = w_op w -> NI w -> NI w'.
Proof. intros H F. unfold NI. now rewrite H. Qed.
Lemma NI_op (w : world) o y y' : nth_error (w_op w) o = Some y ->
  (o_qubits y' = o_qubits y /\ o_numq y' = o_numq y \/ forall qs, o_qubits y' = Some qs -> o_numq y' = Some (List.length qs)) ->
  NI w -> NI (set_op w (set_nth o y' (w_op w))).
Proof.
  intros E Hq F m u qs Eu Hqs. cbn in Eu.
  destruct (nth_set_nth_inv (w_op w) o y y' m u E Eu) as [(e & ->)|(_ & Eu')]; [|eapply F; eauto].
  destruct Hq as [(Hq & Hn)|Hq]; [|now apply Hq]. rewrite Hn. rewrite Hq in Hqs. eapply F; eauto.
Qed.
Lemma NI_settle (w : world) k x a b : nth_error (w_cls w) k = Some x -> k_kind x = KCtrl \/ k_kind x = KParCtrl ->
  nonzero (k_numq x) = false -> k_ncontrol x = Some (S a) -> k_ntarget x = Some (S b) -> NI w ->
  NI (set_cls w (set_nth k (mkCls (k_name x) (k_kind x) (Some (S a + S b)) (k_ncontrol x) (k_ntarget x) (k_nparams x)) (w_cls w))).
Proof. intros _ _ _ _ _ F. exact F. Qed.
Lemma NI_circ (w : world) l : NI w -> NI (set_circ w l). Proof. exact (fun H => H). Qed.
Lemma NI_upd o f : (forall y : opobj P, o_qubits (f y) = o_qubits y /\ o_numq (f y) = o_numq y) -> inv NI (@upd_op P o f).
Proof.
  intros H w F. destruct (nth_error (w_op w) o) as [y|] eqn:E.
  - rewrite (upd_op_run P o f w y E). cbn. eapply NI_op; eauto.
  - unfold upd_op, get_op, mbind. rewrite E. exact F.
Qed.
Lemma NI_eval o g : inv NI (@op_eval P ptrue o g).
Proof.
  intros w F. unfold op_eval, get_op, mbind, read, put_op, lift. destruct (nth_error (w_op w) o) as [y|] eqn:E; cbn; [|exact F].
  destruct (snd (eval_loop ptrue w 0 g (o_params y))); cbn; (eapply NI_op; [exact E|left; split; reflexivity|exact F]).
Qed.
Lemma NI_store o bs : inv NI (@store P o bs).
Proof.
  intros w F. unfold store, get_op, get_cls, put_op, mbind. destruct (nth_error (w_op w) o) as [y|] eqn:E; cbn [the ret raise fst snd]; [|exact F].
  destruct (nth_error (w_cls w) (o_cls y)) as [k|]; cbn [the ret raise fst snd]; [|exact F]. destruct (k_kind k); try exact F. destruct (o_numq y) as [m|] eqn:En; [|exact F].
  destruct (Nat.ltb (List.length bs) m) eqn:Lt; [exact F|]. cbn. eapply NI_op; [exact E|left; split; reflexivity|exact F].
Qed.
Lemma NI_upd_circ c f : inv NI (@upd_circ P c f).
Proof.
  intros w Hi. destruct (nth_error (w_circ w) c) as [x|] eqn:E.
  - rewrite (upd_circ_run P c f w x E). exact Hi.
  - unfold upd_circ. rewrite (bind_err _ _ _ _ _ _ (get_circ_none P c w E)). exact Hi.
Qed.
Ltac ni_step := first
  [ apply inv_ret | apply inv_raise | apply inv_lift | apply inv_read | apply inv_get_circ | apply inv_get_op | apply inv_get_cls
  | apply inv_get_ctx | apply inv_regget | apply inv_first_label | apply inv_star_args | apply inv_check_params
  | apply NI_store | apply NI_eval
  | apply inv_qubits; intros; now apply NI_circ | apply inv_bits; intros; now apply NI_circ
  | apply inv_when | apply inv_iterM; intros ?
  | match goal with |- WorldWf.inv _ _ (match ?b with _ => _ end) => destruct b end
  | apply inv_bind; [|intros ?] ].
Lemma NI_check_own c v : inv NI (@check_own P c v). Proof. unfold check_own. repeat ni_step. Qed.
Lemma NI_append c o : inv NI (append_op ptrue c o).
Proof. unfold append_op. repeat first [apply NI_check_own|apply NI_upd_circ|ni_step]. Qed.
Lemma NI_check k qs : inv NI (@check_qubits P k qs).
Proof. apply inv_check_qubits. exact NI_settle. Qed.

(** A check that passes *)
Lemma check_length (w w' : world) k qs : check_qubits k qs w = (w', Ok tt) ->
  exists x, nth_error (w_cls w') k = Some x /\ (k_numq x = None \/ k_numq x = Some (List.length qs)).
Proof.
  intros H. unfold check_qubits in H. unfold mbind at 1 in H. unfold get_cls in H.
  destruct (nth_error (w_cls w) k) as [x|] eqn:E; cbn [the ret raise] in H; [|discriminate].
  destruct (k_numq x) as [n|] eqn:N; [|injection H as <-; eauto].
  unfold cls_num_qubits in H. unfold mbind at 1 2 in H. destruct (settle k w) as [w1 [[]|e]]; [|discriminate].
  unfold mbind at 1, get_cls in H. destruct (nth_error (w_cls w1) k) as [x1|] eqn:E1; cbn [the ret raise] in H; [|discriminate].
  destruct (k_numq x1) as [n1|] eqn:N1; cbn [ret raise] in H; [|discriminate].
  destruct (Nat.eqb (List.length qs) n1) eqn:L; [|discriminate]. apply Nat.eqb_eq in L. injection H as <-.
  exists x1. split; [exact E1|]. right. now rewrite L.
Qed.

(** ** Construction *)
Lemma NI_upd' o f : (forall y : opobj P, o_qubits (f y) = o_qubits y /\ o_numq (f y) = o_numq y \/ forall qs, o_qubits (f y) = Some qs -> o_numq (f y) = Some (List.length qs)) ->
  inv NI (@upd_op P o f).
Proof.
  intros H w F. destruct (nth_error (w_op w) o) as [y|] eqn:E.
  - rewrite (upd_op_run P o f w y E). cbn. eapply NI_op; eauto.
  - unfold upd_op, get_op, mbind. rewrite E. exact F.
Qed.
Lemma NI_init o k qs : inv NI (op_init ptrue k o qs).
Proof.
  unfold op_init. apply inv_bind; [apply inv_read|]. intros act. apply inv_bind; [|intros _].
  - destruct qs as [l|].
    + intros v Hv. pose proof (NI_check k l v Hv) as Hc.
      destruct (check_qubits k l v) as [v1 r] eqn:Ec. cbn [fst] in Hc.
      destruct r as [[]|e]; [|rewrite (bind_err _ _ _ _ _ _ Ec); exact Hc].
      rewrite (bind_ok _ _ _ _ _ _ Ec). destruct (check_length v v1 k l Ec) as (x & Ex & Hx).
      unfold mbind at 1, get_cls. rewrite Ex. cbn [the ret raise]. revert v1 Ec Hc Ex. intros v1 _ Hc _. revert Hc. apply NI_upd'.
      intros y. right. cbn. intros qs [= <-]. destruct Hx as [-> | ->]; reflexivity.
    + destruct act; [apply inv_raise|]. apply inv_bind; [apply inv_get_cls|]. intros x. apply NI_upd'. intros y. right. cbn. discriminate.
  - destruct act as [a|]; [|apply inv_ret]. apply inv_bind; [apply inv_get_ctx|]. intros cx. destruct (snd cx); [apply inv_ret|]. apply NI_append.
Qed.
Lemma NI_construct k ps a : inv NI (construct ptrue k ps a).
Proof.
  intros w Hw. unfold construct. unfold mbind at 1, get_cls.
  destruct (nth_error (w_cls w) k) as [x|] eqn:E; cbn [the ret raise]; [|exact Hw].
  rewrite (read_bind P). unfold mbind at 1. cbv beta iota.
  set (o := List.length (w_op w)).
  match goal with |- NI (fst (?m ?u)) => assert (K : inv NI m); [|refine (K u _)] end.
  - apply inv_bind; [|intros _; apply inv_ret].
    assert (Hp : forall l qs, inv NI (par_init ptrue x k o l qs)).
    { intros l qs. unfold par_init. apply inv_bind; [apply inv_check_params|]. intros _. apply inv_bind; [|intros _; apply NI_init].
      apply NI_upd'. intros y. cbn. auto. }
    destruct (k_kind x), ps, a; try apply inv_raise; try apply NI_init; try apply Hp;
      destruct (split_args x _) as [[ctl tgt] ql]; (apply inv_bind; [apply NI_upd'; intros y; cbn; auto|]); intros _; try apply NI_init;
      (apply inv_bind; [apply Hp|]); intros _; apply NI_upd'; intros y; cbn; auto.
  - intros m y qs Em Hq. cbn in Em. destruct (Nat.lt_ge_cases m o) as [L|L].
    + rewrite nth_error_app1 in Em by exact L. eapply Hw; eauto.
    + rewrite nth_error_app2 in Em by exact L. destruct (m - List.length (w_op w)) as [|[|i]]; cbn in Em; try discriminate. injection Em as <-. discriminate.
Qed.

(** ** Every call *)
Lemma NI_call_op o a : inv NI (call_op ptrue o a). Proof. unfold call_op. repeat first [apply NI_construct|ni_step]. Qed.
Lemma NI_replay qm bm o : inv NI (replay ptrue qm bm o). Proof. unfold replay. repeat first [apply NI_construct|ni_step]. Qed.
Lemma NI_call_circuit t qs ba : inv NI (call_circuit ptrue t qs ba).
Proof. unfold call_circuit. repeat first [apply NI_replay|ni_step]. Qed.
Lemma NI_set_vars vs : forall ps, inv NI (@set_vars P vs ps).
Proof. intros ps. apply inv_set_vars. intros w v s y p _ Hi. exact Hi. Qed.
Lemma NI_evals g os : forall i, inv NI (@eval_ops P ptrue i g os).
Proof. induction os as [|o os IH]; intros i; cbn [eval_ops]; repeat first [apply IH|ni_step]. Qed.
Lemma NI_call x : ~ sets_qubits P x -> inv NI (do_call x).
Proof.
  intros Hn.
  assert (I1 : forall (w : world) c x f, quiet_upd f -> nth_error (w_circ w) c = Some x -> NI w -> NI (set_circ w (set_nth c (f x) (w_circ w)))) by (intros; now apply NI_circ).
  assert (I2 := NI_settle).
  destruct x; cbn [WorldModel.do_call]; try apply inv_unit_of;
    try (first [apply inv_new_circuit|apply inv_new_qubit|apply inv_new_bit|apply inv_new_var|apply inv_add_qubit|apply inv_add_bit|apply inv_add_qregister|apply inv_add_cregister
      |apply inv_qreg_add|apply inv_creg_add|apply inv_qreg_freeze|apply inv_creg_freeze|apply inv_get_qubit|apply inv_get_bit
      |apply inv_find_qubit|apply inv_find_bit|apply inv_qubits|apply inv_bits|apply inv_bit_set|apply inv_bit_reset
      |apply inv_cls_num_qubits]; eauto; intros; eapply NI_same; eauto; reflexivity).
  - apply inv_lock. intros. now apply NI_circ.
  - apply NI_upd_circ.
  - unfold reset, unlock. apply inv_bind; [apply NI_upd_circ|]. intros _. apply inv_bind; [|intros _; apply NI_upd_circ].
    destruct keep; [|apply NI_upd_circ]. repeat first [apply inv_item_reset; intros u b l0 y y' _ Hu; exact Hu|ni_step].
  - apply inv_var_put. intros w v0 s y p _ Hi. exact Hi.
  - apply NI_construct.
  - apply NI_call_op.
  - destruct Hn. exact I.
  - apply NI_upd. auto.
  - apply NI_store.
  - apply NI_eval.
  - apply NI_append.
  - unfold extend_ops. apply inv_iterM. intros a. apply NI_append.
  - unfold remove_op. apply inv_bind; [apply inv_get_circ|]. intros x. apply inv_bind; [|intros i; apply NI_upd_circ].
    intros w Hi. pose proof (inv_index_of P ptrue peqb (fun u => u = w) (c_ops x) o 0 w eq_refl) as K. cbn beta in K. rewrite K. exact Hi.
  - apply inv_get_param.
    + intros w s Hi. exact Hi.
    + intros w d0 x vs E _ Hi. exact Hi.
  - unfold call_plain. repeat first [apply NI_call_circuit|ni_step].
  - unfold call_parametric. repeat first [apply NI_call_circuit|apply NI_set_vars|ni_step]. intros w H. exact H.
  - unfold eval_circuit. repeat first [apply NI_evals|ni_step].
  - apply inv_reset_variables. intros w v0 s y _ Hi. exact Hi.
Qed.
Lemma NI_context c : inv NI (@context P c).
Proof.
  intros w Hi. unfold context, mbind, get_circ. destruct (nth_error (w_circ w) c) as [x|] eqn:E; cbn; [|exact Hi].
  destruct (c_ctx x) eqn:Ec; cbn; exact Hi.
Qed.
Lemma NI_enter a : inv NI (@ctx_enter P a).
Proof.
  unfold ctx_enter. apply inv_bind; [apply inv_get_ctx|]. intros cx. apply inv_bind; [apply inv_get_circ|]. intros x.
  destruct (c_locked x); [apply inv_raise|]. apply inv_bind; [apply inv_read|]. intros [b|]; [apply inv_raise|].
  apply inv_bind; [intros w Hi; exact Hi|]. intros _. apply inv_ctx_enter_views. intros; now apply NI_circ.
Qed.
Lemma NI_exit a : inv NI (@ctx_exit P a).
Proof.
  unfold ctx_exit. apply inv_bind; [apply inv_get_ctx|]. intros cx. apply inv_bind; [apply NI_upd_circ|].
  intros _. apply inv_bind; [intros w Hi; exact Hi|].
  intros _. apply inv_bind; [apply inv_read|]. intros fs. apply inv_bind.
  { apply inv_iterM; intros. apply inv_reset_variables. intros w v0 s y _ Hi. exact Hi. }
  intros _. apply inv_bind; [intros w Hi; exact Hi|].
  intros _. apply inv_lock. intros; now apply NI_circ.
Qed.
Lemma NI_frozen b e : inv NI (@set_frozen P b e).
Proof.
  unfold set_frozen. apply inv_bind; [apply inv_read|]. intros [a|]; [|apply inv_raise].
  intros w Hi. unfold mbind, get_ctx. destruct (nth_error (w_ctx w) a); cbn; exact Hi.
Qed.
Lemma numbers_kept ks p (v : world) o y qs : executes P ptrue peqb (own_ok P) p (start P ks) -> visits P ptrue peqb p (start P ks) v ->
  nth_error (w_op v) o = Some y -> o_qubits y = Some qs -> o_numq y = Some (List.length qs).
Proof.
  intros He Hv. assert (A : NI (start P ks)) by (intros [|m]; discriminate).
  refine (visits_inv P ptrue peqb NI (own_ok P) _ _ _ _ _ p _ v He A Hv o y qs); auto using NI_context, NI_enter, NI_exit, NI_frozen.
  intros u x (_ & _ & Hn). now apply NI_call.
Qed.
End Numq.

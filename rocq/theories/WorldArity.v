(** Operations of a class that knows its number of qubits never have another number of qubits. *)
From Coq Require Import List ZArith String Bool Arith Lia.
From Verif Require Import Py RegisterModel RegisterSpec WorldModel WorldSpec WorldSpec3 WorldSpec4 WorldReg WorldInv WorldInv2 WorldInv3 WorldInv4 WorldInv5 WorldWf WorldWf2 WorldWf3 WorldOps WorldCtx3 WorldBuild WorldReplay.
Import ListNotations.
Local Open Scope nat_scope.

Section Arity.
Variable P : Type.
Variable ptrue : P -> bool.
Variable peqb : P -> P -> bool.
Notation world := (world P).
Notation M := (M P).
Notation do_call := (do_call ptrue peqb).
Notation inv := (inv P).
Variables (k0 n : nat).

Definition knows (w : world) : Prop :=
  exists x, nth_error (w_cls w) k0 = Some x /\ k_numq x = Some n /\ (k_kind x = KCtrl \/ k_kind x = KParCtrl -> n <> 0).
Definition AI (w : world) : Prop :=
  knows w /\ forall o y qs, nth_error (w_op w) o = Some y -> o_cls y = k0 -> o_qubits y = Some qs -> List.length qs = n.

Lemma AI_same (w w' : world) : w_op w' = w_op w -> w_cls w' = w_cls w -> AI w -> AI w'.
Proof. intros H H' F. unfold AI, knows. now rewrite H, H'. Qed.
Lemma AI_op (w : world) o y y' : nth_error (w_op w) o = Some y -> o_cls y' = o_cls y ->
  (o_qubits y' = o_qubits y \/ forall qs, o_cls y = k0 -> o_qubits y' = Some qs -> List.length qs = n) ->
  AI w -> AI (set_op w (set_nth o y' (w_op w))).
Proof.
  intros E Hc Hq [K F]. split; [exact K|]. intros m u qs Eu Hu Hqs. cbn in Eu.
  destruct (nth_set_nth_inv (w_op w) o y y' m u E Eu) as [(e & ->)|(_ & Eu')]; [|eapply F; eauto].
  rewrite Hc in Hu. destruct Hq as [Hq|Hq]; [|now apply Hq]. rewrite Hq in Hqs. eapply F; eauto.
Qed.
Lemma AI_settle (w : world) k x a b : nth_error (w_cls w) k = Some x -> k_kind x = KCtrl \/ k_kind x = KParCtrl ->
  nonzero (k_numq x) = false -> k_ncontrol x = Some (S a) -> k_ntarget x = Some (S b) -> AI w ->
  AI (set_cls w (set_nth k (mkCls (k_name x) (k_kind x) (Some (S a + S b)) (k_ncontrol x) (k_ntarget x) (k_nparams x)) (w_cls w))).
Proof.
  intros E Hk Hz _ _ [(x0 & E0 & N & Z) F]. split; [|exact F]. destruct (Nat.eq_dec k k0) as [->|Hne].
  - rewrite E0 in E. injection E as ->. rewrite N in Hz. exfalso. apply (Z Hk). destruct n; [reflexivity|discriminate].
  - exists x0. cbn [w_cls set_cls]. rewrite set_nth_other by exact Hne. auto.
Qed.
Lemma AI_circ (w : world) l : AI w -> AI (set_circ w l). Proof. exact (fun H => H). Qed.
Lemma AI_upd o f : (forall y : opobj P, o_cls (f y) = o_cls y /\ o_qubits (f y) = o_qubits y) -> inv AI (@upd_op P o f).
Proof.
  intros H w F. destruct (nth_error (w_op w) o) as [y|] eqn:E.
  - rewrite (upd_op_run P o f w y E). cbn. destruct (H y) as (H1 & H2). eapply AI_op; eauto.
  - unfold upd_op, get_op, mbind. rewrite E. exact F.
Qed.
Lemma AI_eval o g : inv AI (@op_eval P ptrue o g).
Proof.
  intros w F. unfold op_eval, get_op, mbind, read, put_op, lift. destruct (nth_error (w_op w) o) as [y|] eqn:E; cbn; [|exact F].
  destruct (snd (eval_loop ptrue w 0 g (o_params y))); cbn; eapply AI_op; eauto.
Qed.
Lemma AI_store o bs : inv AI (@store P o bs).
Proof.
  intros w F. unfold store, get_op, get_cls, put_op, mbind. destruct (nth_error (w_op w) o) as [y|] eqn:E; cbn [the ret raise fst snd]; [|exact F].
  destruct (nth_error (w_cls w) (o_cls y)) as [k|]; cbn [the ret raise fst snd]; [|exact F]. destruct (k_kind k); try exact F. destruct (o_numq y) as [m|] eqn:En; [|exact F].
  destruct (Nat.ltb (List.length bs) m) eqn:Lt; [exact F|]. cbn. eapply AI_op; eauto.
Qed.
Lemma AI_upd_circ c f : inv AI (@upd_circ P c f).
Proof.
  intros w Hi. destruct (nth_error (w_circ w) c) as [x|] eqn:E.
  - rewrite (upd_circ_run P c f w x E). exact Hi.
  - unfold upd_circ. rewrite (bind_err _ _ _ _ _ _ (get_circ_none P c w E)). exact Hi.
Qed.
Ltac ai_step := first
  [ apply inv_ret | apply inv_raise | apply inv_lift | apply inv_read | apply inv_get_circ | apply inv_get_op | apply inv_get_cls
  | apply inv_get_ctx | apply inv_regget | apply inv_first_label | apply inv_star_args | apply inv_check_params
  | apply AI_store | apply AI_eval
  | apply inv_qubits; intros; now apply AI_circ | apply inv_bits; intros; now apply AI_circ
  | apply inv_when | apply inv_iterM; intros ?
  | match goal with |- WorldWf.inv _ _ (match ?b with _ => _ end) => destruct b end
  | apply inv_bind; [|intros ?] ].
Lemma AI_check_own c v : inv AI (@check_own P c v). Proof. unfold check_own. repeat ai_step. Qed.
Lemma AI_append c o : inv AI (append_op ptrue c o).
Proof. unfold append_op. repeat first [apply AI_check_own|apply AI_upd_circ|ai_step]. Qed.
Lemma AI_check k qs : inv AI (@check_qubits P k qs).
Proof. apply inv_check_qubits. exact AI_settle. Qed.

(** A check that passes *)
Lemma check_length (w w' : world) qs : AI w -> check_qubits k0 qs w = (w', Ok tt) -> List.length qs = n.
Proof.
  intros [(x & E & N & Z) _] H. unfold check_qubits, mbind, get_cls in H. rewrite E in H. cbn [the ret raise] in H. rewrite N in H.
  assert (S : settle k0 w = (w, Ok tt)).
  { unfold settle, mbind, get_cls. rewrite E. cbn [the ret raise].
    assert (Hz : k_kind x = KCtrl \/ k_kind x = KParCtrl -> nonzero (k_numq x) = true).
    { intros Hk. rewrite N. cbn. destruct n; [destruct (Z Hk eq_refl)|reflexivity]. }
    destruct (k_kind x) eqn:K; try reflexivity; (rewrite Hz by auto; reflexivity). }
  unfold cls_num_qubits, mbind in H. rewrite S in H. unfold get_cls in H. rewrite E in H. cbn [the ret raise] in H. rewrite N in H. cbn [ret] in H.
  destruct (Nat.eqb (List.length qs) n) eqn:El; [now apply Nat.eqb_eq|discriminate].
Qed.

(** ** Construction *)
Definition of_class (o k : nat) (w : world) : Prop := exists y, nth_error (w_op w) o = Some y /\ o_cls y = k.
Definition AF (o k : nat) (w : world) : Prop := AI w /\ of_class o k w.
Lemma AF_upd o k f : (forall y : opobj P, o_cls (f y) = o_cls y /\ (o_qubits (f y) = o_qubits y \/ forall qs, k = k0 -> o_qubits (f y) = Some qs -> List.length qs = n)) ->
  inv (AF o k) (@upd_op P o f).
Proof.
  intros H w [F (y & E & C)]. rewrite (upd_op_run P o f w y E). cbn. destruct (H y) as (H1 & H2). split.
  - eapply AI_op; eauto. destruct H2 as [H2|H2]; [now left|]. right. intros qs Hc. apply H2. congruence.
  - exists (f y). cbn. split; [eapply set_nth_same; eauto|congruence].
Qed.
Lemma check_frame k qs (w : world) : w_op (fst (check_qubits k qs w)) = w_op w.
Proof.
  pose proof (inv_check_qubits P (fun v => w_op v = w_op w)) as H. refine (H _ k qs w eq_refl). intros. cbn. assumption.
Qed.
Lemma AF_init o k qs : inv (fun w => AI w /\ of_class o k w) (op_init ptrue k o qs).
Proof.
  change (inv (AF o k) (op_init ptrue k o qs)). unfold op_init. apply inv_bind; [apply inv_read|]. intros act. apply inv_bind; [|intros _].
  - destruct qs as [l|].
    + intros v Hv. pose proof (AI_check k l v (proj1 Hv)) as Hc. pose proof (check_frame k l v) as Hf.
      destruct (check_qubits k l v) as [v1 r] eqn:Ec. cbn [fst] in Hc, Hf.
      assert (Hv1 : AF o k v1). { split; [exact Hc|]. unfold of_class. rewrite Hf. apply Hv. }
      destruct r as [[]|e].
      * rewrite (bind_ok _ _ _ _ _ _ Ec). revert v1 Ec Hc Hf Hv1. intros v1 Ec _ _ Hv1. revert Hv1.
        match goal with |- _ -> AF o k (fst (?m v1)) => assert (K : inv (AF o k) m); [|exact (K v1)] end.
        apply inv_bind; [apply inv_get_cls|]. intros x. apply AF_upd. intros y. cbn. split; [reflexivity|]. right.
        intros qs -> [= <-]. eapply check_length; [exact (proj1 Hv)|exact Ec].
      * rewrite (bind_err _ _ _ _ _ _ Ec). exact Hv1.
    + destruct act; [apply inv_raise|]. apply inv_bind; [apply inv_get_cls|]. intros x. apply AF_upd. intros y. cbn. split; [reflexivity|]. right. intros qs _ [=].
  - destruct act as [a|]; [|apply inv_ret]. apply inv_bind; [apply inv_get_ctx|]. intros cx. destruct (snd cx); [apply inv_ret|].
    intros w A1. split; [apply AI_append; apply A1|].
    assert (Hk : inv (of_class o k) (append_op ptrue (fst cx) o)).
    { apply inv_append_op; try (intros; assumption).
      intros v o' x y E Hc (z & Ez & Cz). unfold of_class. cbn. destruct (Nat.eq_dec o' o) as [->|Hne].
      - exists y. split; [eapply set_nth_same; eauto|]. rewrite E in Ez. injection Ez as ->. congruence.
      - exists z. rewrite set_nth_other by exact Hne. auto. }
    apply Hk. apply A1.
Qed.
Lemma AI_construct k ps a : inv AI (construct ptrue k ps a).
Proof.
  intros w Hw. unfold construct. unfold mbind at 1, get_cls.
  destruct (nth_error (w_cls w) k) as [x|] eqn:E; cbn [the ret raise]; [|exact Hw].
  rewrite (read_bind P). unfold mbind at 1. cbv beta iota.
  set (o := List.length (w_op w)).
  match goal with |- AI (fst (?m ?u)) => assert (K : inv (AF o k) m); [|refine (proj1 (K u _))] end.
  - apply inv_bind; [|intros _; apply inv_ret].
    assert (Hp : forall l qs, inv (AF o k) (par_init ptrue x k o l qs)).
    { intros l qs. unfold par_init. apply inv_bind; [apply inv_check_params|]. intros _. apply inv_bind; [|intros _; apply AF_init].
      apply AF_upd. intros y. cbn. auto. }
    destruct (k_kind x), ps, a; try apply inv_raise; try apply AF_init; try apply Hp;
      destruct (split_args x _) as [[ctl tgt] ql]; (apply inv_bind; [apply AF_upd; intros y; cbn; auto|]); intros _; try apply AF_init;
      (apply inv_bind; [apply Hp|]); intros _; apply AF_upd; intros y; cbn; auto.
  - destruct Hw as [Kn F]. split.
    + split; [exact Kn|]. intros m y qs Em Hc Hq. cbn in Em. destruct (Nat.lt_ge_cases m o) as [L|L].
      * rewrite nth_error_app1 in Em by exact L. eapply F; eauto.
      * rewrite nth_error_app2 in Em by exact L. destruct (m - List.length (w_op w)) as [|[|i]]; cbn in Em; try discriminate. injection Em as <-. discriminate.
    + eexists. cbn. split; [apply nth_end|reflexivity].
Qed.
Lemma AI_set_qubits o qs : inv AI (@set_qubits P o qs).
Proof.
  intros w Hw. unfold set_qubits, mbind, get_op. destruct (nth_error (w_op w) o) as [x|] eqn:E; cbn [the ret raise]; [|exact Hw].
  pose proof (AI_check (o_cls x) qs w Hw) as Hc. pose proof (check_frame (o_cls x) qs w) as Hf.
  destruct (check_qubits (o_cls x) qs w) as [v1 [[]|e]] eqn:Ec; cbn [fst] in *; [|exact Hc].
  assert (E1 : nth_error (w_op v1) o = Some x) by now rewrite Hf. rewrite (upd_op_run P o _ v1 x E1). cbn.
  eapply AI_op; [exact E1|reflexivity| |exact Hc]. right. intros l Hk [= <-]. rewrite Hk in Ec. exact (check_length w v1 qs Hw Ec).
Qed.

(** ** Every call *)
Lemma AI_call_op o a : inv AI (call_op ptrue o a). Proof. unfold call_op. repeat first [apply AI_construct|ai_step]. Qed.
Lemma AI_replay qm bm o : inv AI (replay ptrue qm bm o). Proof. unfold replay. repeat first [apply AI_construct|ai_step]. Qed.
Lemma AI_call_circuit t qs ba : inv AI (call_circuit ptrue t qs ba).
Proof. unfold call_circuit. repeat first [apply AI_replay|ai_step]. Qed.
Lemma AI_set_vars vs : forall ps, inv AI (@set_vars P vs ps).
Proof. intros ps. apply inv_set_vars. intros w v s y p _ Hi. exact Hi. Qed.
Lemma AI_evals g os : forall i, inv AI (@eval_ops P ptrue i g os).
Proof. induction os as [|o os IH]; intros i; cbn [eval_ops]; repeat first [apply IH|ai_step]. Qed.
Lemma AI_call x : inv AI (do_call x).
Proof.
  assert (I1 : forall (w : world) c x f, quiet_upd f -> nth_error (w_circ w) c = Some x -> AI w -> AI (set_circ w (set_nth c (f x) (w_circ w)))) by (intros; now apply AI_circ).
  assert (I2 := AI_settle).
  destruct x; cbn [WorldModel.do_call]; try apply inv_unit_of;
    try (first [apply inv_new_circuit|apply inv_new_qubit|apply inv_new_bit|apply inv_new_var|apply inv_add_qubit|apply inv_add_bit|apply inv_add_qregister|apply inv_add_cregister
      |apply inv_qreg_add|apply inv_creg_add|apply inv_qreg_freeze|apply inv_creg_freeze|apply inv_get_qubit|apply inv_get_bit
      |apply inv_find_qubit|apply inv_find_bit|apply inv_qubits|apply inv_bits|apply inv_bit_set|apply inv_bit_reset
      |apply inv_cls_num_qubits]; eauto; intros; eapply AI_same; eauto; reflexivity).
  - apply inv_lock. intros. now apply AI_circ.
  - apply AI_upd_circ.
  - unfold reset, unlock. apply inv_bind; [apply AI_upd_circ|]. intros _. apply inv_bind; [|intros _; apply AI_upd_circ].
    destruct keep; [|apply AI_upd_circ]. repeat first [apply inv_item_reset; intros u b l0 y y' _ Hu; exact Hu|ai_step].
  - apply inv_var_put. intros w v0 s y p _ Hi. exact Hi.
  - apply AI_construct.
  - apply AI_call_op.
  - apply AI_set_qubits.
  - apply AI_upd. auto.
  - apply AI_store.
  - apply AI_eval.
  - apply AI_append.
  - unfold extend_ops. apply inv_iterM. intros a. apply AI_append.
  - unfold remove_op. apply inv_bind; [apply inv_get_circ|]. intros x. apply inv_bind; [|intros i; apply AI_upd_circ].
    intros w Hi. pose proof (inv_index_of P ptrue peqb (fun u => u = w) (c_ops x) o 0 w eq_refl) as K. cbn beta in K. rewrite K. exact Hi.
  - apply inv_get_param.
    + intros w s Hi. exact Hi.
    + intros w d0 x vs E _ Hi. exact Hi.
  - unfold call_plain. repeat first [apply AI_call_circuit|ai_step].
  - unfold call_parametric. repeat first [apply AI_call_circuit|apply AI_set_vars|ai_step]. intros w H. exact H.
  - unfold eval_circuit. repeat first [apply AI_evals|ai_step].
  - apply inv_reset_variables. intros w v0 s y _ Hi. exact Hi.
Qed.
Lemma AI_context c : inv AI (@context P c).
Proof.
  intros w Hi. unfold context, mbind, get_circ. destruct (nth_error (w_circ w) c) as [x|] eqn:E; cbn; [|exact Hi].
  destruct (c_ctx x) eqn:Ec; cbn; exact Hi.
Qed.
Lemma AI_enter a : inv AI (@ctx_enter P a).
Proof.
  unfold ctx_enter. apply inv_bind; [apply inv_get_ctx|]. intros cx. apply inv_bind; [apply inv_get_circ|]. intros x.
  destruct (c_locked x); [apply inv_raise|]. apply inv_bind; [apply inv_read|]. intros [b|]; [apply inv_raise|].
  apply inv_bind; [intros w Hi; exact Hi|]. intros _. apply inv_ctx_enter_views. intros; now apply AI_circ.
Qed.
Lemma AI_exit a : inv AI (@ctx_exit P a).
Proof.
  unfold ctx_exit. apply inv_bind; [apply inv_get_ctx|]. intros cx. apply inv_bind; [apply AI_upd_circ|].
  intros _. apply inv_bind; [intros w Hi; exact Hi|].
  intros _. apply inv_bind; [apply inv_read|]. intros fs. apply inv_bind.
  { apply inv_iterM; intros. apply inv_reset_variables. intros w v0 s y _ Hi. exact Hi. }
  intros _. apply inv_bind; [intros w Hi; exact Hi|].
  intros _. apply inv_lock. intros; now apply AI_circ.
Qed.
Lemma AI_frozen b e : inv AI (@set_frozen P b e).
Proof.
  unfold set_frozen. apply inv_bind; [apply inv_read|]. intros [a|]; [|apply inv_raise].
  intros w Hi. unfold mbind, get_ctx. destruct (nth_error (w_ctx w) a); cbn; exact Hi.
Qed.
Lemma AI_visits p (w v : world) : AI w -> visits P ptrue peqb p w v -> AI v.
Proof.
  intros Hw Hv. eapply (visits_inv P ptrue peqb AI (fun _ _ => True)); [..|exact Hv]; auto using AI_context, AI_enter, AI_exit, AI_frozen, executes_true.
  intros u x _. apply AI_call.
Qed.
End Arity.

Lemma arity_kept P ptrue peqb ks p (v : world P) k x n o y qs :
  visits P ptrue peqb p (start P ks) v -> nth_error ks k = Some x -> k_numq x = Some n ->
  (k_kind x = KCtrl \/ k_kind x = KParCtrl -> n <> 0) ->
  nth_error (w_op v) o = Some y -> o_cls y = k -> o_qubits y = Some qs -> List.length qs = n.
Proof.
  intros Hv E N Z Ho Hk Hq. assert (A : AI P k n (start P ks)).
  { split; [exists x; auto|]. intros [|m]; discriminate. }
  exact (proj2 (AI_visits P ptrue peqb k n p _ v A Hv) o y qs Ho Hk Hq).
Qed.

(** Operations of a class keep as many parameters as the class asks for. *)
From Coq Require Import List ZArith String Bool Arith Lia.
From Verif Require Import Py RegisterModel RegisterSpec WorldModel WorldSpec WorldSpec3 WorldSpec4 WorldReg WorldInv WorldInv2 WorldInv3 WorldInv4 WorldInv5 WorldWf WorldWf2 WorldWf3 WorldOps WorldCtx3 WorldBuild WorldReplay.
Import ListNotations.
Local Open Scope nat_scope.

Section Parameters.
Variable P : Type.
Variable ptrue : P -> bool.
Variable peqb : P -> P -> bool.
Notation world := (world P).
Notation M := (M P).
Notation do_call := (do_call ptrue peqb).
Notation inv := (inv P).
Variables (k0 : nat) (nm0 : string) (kd0 : kind) (m0 n0 : option nat).

Definition knows (w : world) : Prop := exists x, nth_error (w_cls w) k0 = Some x /\ k_name x = nm0 /\ k_kind x = kd0 /\ k_nparams x = m0 /\ k_ncontrol x = n0.
Definition fits (ps : list (param P)) : Prop := ps = [] \/ has_params kd0 = true /\ m0 = Some (List.length ps).
Definition PI (w : world) : Prop := knows w /\ forall o y, nth_error (w_op w) o = Some y -> o_cls y = k0 -> fits (o_params y).

Lemma PI_same (w w' : world) : w_op w' = w_op w -> w_cls w' = w_cls w -> PI w -> PI w'.
Proof. intros H H' F. unfold PI, knows. now rewrite H, H'. Qed.
Lemma PI_op (w : world) o y y' : nth_error (w_op w) o = Some y -> o_cls y' = o_cls y ->
  (List.length (o_params y') = List.length (o_params y) \/ (o_cls y = k0 -> fits (o_params y'))) ->
  PI w -> PI (set_op w (set_nth o y' (w_op w))).
Proof.
  intros E Hc Hq [K F]. split; [exact K|]. intros m u Eu Hu. cbn in Eu.
  destruct (nth_set_nth_inv (w_op w) o y y' m u E Eu) as [(e & ->)|(_ & Eu')]; [|eapply F; eauto].
  rewrite Hc in Hu. destruct Hq as [Hq|Hq]; [|now apply Hq]. destruct (F o y E Hu) as [H|[H1 H2]].
  - left. rewrite H in Hq. now apply length_zero_iff_nil.
  - right. now rewrite Hq.
Qed.
Lemma PI_settle (w : world) k x a b : nth_error (w_cls w) k = Some x -> k_kind x = KCtrl \/ k_kind x = KParCtrl ->
  nonzero (k_numq x) = false -> k_ncontrol x = Some (S a) -> k_ntarget x = Some (S b) -> PI w ->
  PI (set_cls w (set_nth k (mkCls (k_name x) (k_kind x) (Some (S a + S b)) (k_ncontrol x) (k_ntarget x) (k_nparams x)) (w_cls w))).
Proof.
  intros E Hk Hz _ _ [(x0 & E0 & Nm & N & Z) F]. split; [|exact F]. destruct (Nat.eq_dec k k0) as [->|Hne].
  - rewrite E0 in E. injection E as ->. eexists. cbn [w_cls set_cls]. split; [eapply set_nth_same; eauto|]. auto.
  - exists x0. cbn [w_cls set_cls]. rewrite set_nth_other by exact Hne. auto.
Qed.
Lemma PI_circ (w : world) l : PI w -> PI (set_circ w l). Proof. exact (fun H => H). Qed.
Lemma PI_upd o f : (forall y : opobj P, o_cls (f y) = o_cls y /\ o_params (f y) = o_params y) -> inv PI (@upd_op P o f).
Proof.
  intros H w F. destruct (nth_error (w_op w) o) as [y|] eqn:E.
  - rewrite (upd_op_run P o f w y E). cbn. destruct (H y) as (H1 & H2). eapply PI_op; eauto. left. now rewrite H2.
  - unfold upd_op, get_op, mbind. rewrite E. exact F.
Qed.
Lemma eval_length (w : world) g ps : forall i, List.length (fst (eval_loop ptrue w i g ps)) = List.length ps.
Proof.
  induction ps as [|[p|v] ps IH]; intros i; cbn [eval_loop]; [reflexivity| |].
  - specialize (IH (S i)). destruct (eval_loop ptrue w (S i) g ps). cbn in *. now rewrite IH.
  - match goal with |- context [match ?m with Ok _ => _ | Err _ => _ end] => destruct m end; [|reflexivity].
    specialize (IH (S i)). destruct (eval_loop ptrue w (S i) g ps). cbn in *. now rewrite IH.
Qed.
Lemma PI_eval o g : inv PI (@op_eval P ptrue o g).
Proof.
  intros w F. unfold op_eval, get_op, mbind, read, put_op, lift. destruct (nth_error (w_op w) o) as [y|] eqn:E; cbn; [|exact F].
  destruct (snd (eval_loop ptrue w 0 g (o_params y))); cbn; (eapply PI_op; eauto; left; cbn; apply eval_length).
Qed.
Lemma PI_store o bs : inv PI (@store P o bs).
Proof.
  intros w F. unfold store, get_op, get_cls, put_op, mbind. destruct (nth_error (w_op w) o) as [y|] eqn:E; cbn [the ret raise fst snd]; [|exact F].
  destruct (nth_error (w_cls w) (o_cls y)) as [k|]; cbn [the ret raise fst snd]; [|exact F]. destruct (k_kind k); try exact F. destruct (o_numq y) as [m|] eqn:En; [|exact F].
  destruct (Nat.ltb (List.length bs) m) eqn:Lt; [exact F|]. cbn. eapply PI_op; eauto.
Qed.
Lemma PI_upd_circ c f : inv PI (@upd_circ P c f).
Proof.
  intros w Hi. destruct (nth_error (w_circ w) c) as [x|] eqn:E.
  - rewrite (upd_circ_run P c f w x E). exact Hi.
  - unfold upd_circ. rewrite (bind_err _ _ _ _ _ _ (get_circ_none P c w E)). exact Hi.
Qed.
Ltac pi_step := first
  [ apply inv_ret | apply inv_raise | apply inv_lift | apply inv_read | apply inv_get_circ | apply inv_get_op | apply inv_get_cls
  | apply inv_get_ctx | apply inv_regget | apply inv_first_label | apply inv_star_args | apply inv_check_params
  | apply PI_store | apply PI_eval
  | apply inv_qubits; intros; now apply PI_circ | apply inv_bits; intros; now apply PI_circ
  | apply inv_when | apply inv_iterM; intros ?
  | match goal with |- WorldWf.inv _ _ (match ?b with _ => _ end) => destruct b end
  | apply inv_bind; [|intros ?] ].
Lemma PI_check_own c v : inv PI (@check_own P c v). Proof. unfold check_own. repeat pi_step. Qed.
Lemma PI_append c o : inv PI (append_op ptrue c o).
Proof. unfold append_op. repeat first [apply PI_check_own|apply PI_upd_circ|pi_step]. Qed.
Lemma PI_check k qs : inv PI (@check_qubits P k qs).
Proof. apply inv_check_qubits. exact PI_settle. Qed.

(** A check that passes *)
Lemma check_count k x ps (w : world) : PI w -> nth_error (w_cls w) k = Some x -> has_params (k_kind x) = true -> k_nparams x = Some (List.length ps) -> k = k0 -> fits ps.
Proof. intros [(x0 & E & _ & K & N & _) _] Ex Hk Hn ->. right. rewrite E in Ex. injection Ex as ->. split; congruence. Qed.

(** ** Construction *)
Definition of_class (o k : nat) (w : world) : Prop := exists y, nth_error (w_op w) o = Some y /\ o_cls y = k.
Definition PF (o k : nat) (w : world) : Prop := PI w /\ of_class o k w.
Lemma PF_upd o k f : (forall y : opobj P, o_cls (f y) = o_cls y /\ (o_params (f y) = o_params y \/ (k = k0 -> fits (o_params (f y))))) ->
  inv (PF o k) (@upd_op P o f).
Proof.
  intros H w [F (y & E & C)]. rewrite (upd_op_run P o f w y E). cbn. destruct (H y) as (H1 & H2). split.
  - eapply PI_op; eauto. destruct H2 as [H2|H2]; [left; now rewrite H2|]. right. intros Hc. apply H2. congruence.
  - exists (f y). cbn. split; [eapply set_nth_same; eauto|congruence].
Qed.
Lemma check_frame k qs (w : world) : w_op (fst (check_qubits k qs w)) = w_op w.
Proof.
  pose proof (inv_check_qubits P (fun v => w_op v = w_op w)) as H. refine (H _ k qs w eq_refl). intros. cbn. assumption.
Qed.
Lemma PF_init o k qs : inv (fun w => PI w /\ of_class o k w) (op_init ptrue k o qs).
Proof.
  change (inv (PF o k) (op_init ptrue k o qs)). unfold op_init. apply inv_bind; [apply inv_read|]. intros act. apply inv_bind; [|intros _].
  - destruct qs as [l|].
    + apply inv_bind.
      { intros w [H1 H2]. split; [now apply PI_check|]. unfold of_class. now rewrite check_frame. }
      intros _. apply inv_bind; [apply inv_get_cls|]. intros x. apply PF_upd. intros y. cbn. auto.
    + destruct act; [apply inv_raise|]. apply inv_bind; [apply inv_get_cls|]. intros x. apply PF_upd. intros y. cbn. auto.
  - destruct act as [a|]; [|apply inv_ret]. apply inv_bind; [apply inv_get_ctx|]. intros cx. destruct (snd cx); [apply inv_ret|].
    intros w A1. split; [apply PI_append; apply A1|].
    assert (Hk : inv (of_class o k) (append_op ptrue (fst cx) o)).
    { apply inv_append_op; try (intros; assumption).
      intros v o' x y E Hc (z & Ez & Cz). unfold of_class. cbn. destruct (Nat.eq_dec o' o) as [->|Hne].
      - exists y. split; [eapply set_nth_same; eauto|]. rewrite E in Ez. injection Ez as ->. congruence.
      - exists z. rewrite set_nth_other by exact Hne. auto. }
    apply Hk. apply A1.
Qed.
Lemma PI_construct k ps a : inv PI (construct ptrue k ps a).
Proof.
  intros w Hw. unfold construct. unfold mbind at 1, get_cls.
  destruct (nth_error (w_cls w) k) as [x|] eqn:E; cbn [the ret raise]; [|exact Hw].
  rewrite (read_bind P). unfold mbind at 1. cbv beta iota.
  set (o := List.length (w_op w)).
  match goal with |- PI (fst (?m ?u)) => assert (K : inv (PF o k) m); [|refine (proj1 (K u _))] end.
  - apply inv_bind; [|intros _; apply inv_ret].
    assert (Hc : forall l, has_params (k_kind x) = true -> k_nparams x = Some (List.length l) -> k = k0 -> fits l).
    { intros l H1 H2. eapply check_count; eauto. }
    assert (Hp : forall l qs, has_params (k_kind x) = true -> k_nparams x = Some (List.length l) -> inv (PF o k) (par_init ptrue x k o l qs)).
    { intros l qs H1 H2. unfold par_init. apply inv_bind; [apply inv_check_params|]. intros _. apply inv_bind; [|intros _; apply PF_init].
      apply PF_upd. intros y. cbn. split; [reflexivity|]. right. now apply Hc. }
    assert (Hx : forall l qs (m : M unit), has_params (k_kind x) = true -> (k_nparams x = Some (List.length l) -> inv (PF o k) m) ->
      inv (PF o k) (par_init ptrue x k o l qs ;; m)).
    { intros l qs m H1 H2. assert (D : k_nparams x = Some (List.length l) \/ exists e, forall u : world, check_params x l u = (u, Err e)).
      { unfold check_params. destruct (k_nparams x) as [c|]; [|right; now exists ValueError].
        destruct (Nat.eqb_spec (List.length l) c) as [->|]; [now left|right; now exists ValueError]. }
      destruct D as [D|(e & D)]; [apply inv_bind; [now apply Hp|intros _; auto]|].
      intros u Hu. unfold par_init, mbind at 1 2. rewrite D. exact Hu. }
    assert (Hy : forall l qs, has_params (k_kind x) = true -> inv (PF o k) (par_init ptrue x k o l qs)).
    { intros l qs H1 u Hu. pose proof (Hx l qs (ret tt) H1 (fun _ => inv_ret P _ tt) u Hu) as K. unfold mbind in K.
      destruct (par_init ptrue x k o l qs u) as [u1 [[]|e]]; exact K. }
    destruct (k_kind x) eqn:Kx, ps, a; try apply inv_raise; try apply PF_init; try (apply Hy; reflexivity);
      destruct (split_args x _) as [[ctl tgt] ql]; (apply inv_bind; [apply PF_upd; intros y; cbn; auto|]); intros _; try apply PF_init;
      (apply Hx; [reflexivity|]); intros Hn; apply PF_upd; intros y; cbn; (split; [reflexivity|]); right; apply Hc; auto.
  - destruct Hw as [Kn F]. split.
    + split; [exact Kn|]. intros m y Em Hc. cbn in Em. destruct (Nat.lt_ge_cases m o) as [L|L].
      * rewrite nth_error_app1 in Em by exact L. eapply F; eauto.
      * rewrite nth_error_app2 in Em by exact L. destruct (m - List.length (w_op w)) as [|[|i]]; cbn in Em; try discriminate. injection Em as <-. now left.
    + eexists. cbn. split; [apply nth_end|reflexivity].
Qed.
Lemma PI_set_qubits o qs : inv PI (@set_qubits P o qs).
Proof.
  unfold set_qubits. apply inv_bind; [apply inv_get_op|]. intros x. apply inv_bind; [apply PI_check|]. intros _. apply PI_upd. auto.
Qed.

(** ** Every call *)
Lemma PI_call_op o a : inv PI (call_op ptrue o a). Proof. unfold call_op. repeat first [apply PI_construct|pi_step]. Qed.
Lemma PI_replay qm bm o : inv PI (replay ptrue qm bm o). Proof. unfold replay. repeat first [apply PI_construct|pi_step]. Qed.
Lemma PI_call_circuit t qs ba : inv PI (call_circuit ptrue t qs ba).
Proof. unfold call_circuit. repeat first [apply PI_replay|pi_step]. Qed.
Lemma PI_set_vars vs : forall ps, inv PI (@set_vars P vs ps).
Proof. intros ps. apply inv_set_vars. intros w v s y p _ Hi. exact Hi. Qed.
Lemma PI_evals g os : forall i, inv PI (@eval_ops P ptrue i g os).
Proof. induction os as [|o os IH]; intros i; cbn [eval_ops]; repeat first [apply IH|pi_step]. Qed.
Lemma PI_call x : inv PI (do_call x).
Proof.
  assert (I1 : forall (w : world) c x f, quiet_upd f -> nth_error (w_circ w) c = Some x -> PI w -> PI (set_circ w (set_nth c (f x) (w_circ w)))) by (intros; now apply PI_circ).
  assert (I2 := PI_settle).
  destruct x; cbn [WorldModel.do_call]; try apply inv_unit_of;
    try (first [apply inv_new_circuit|apply inv_new_qubit|apply inv_new_bit|apply inv_new_var|apply inv_add_qubit|apply inv_add_bit|apply inv_add_qregister|apply inv_add_cregister
      |apply inv_qreg_add|apply inv_creg_add|apply inv_qreg_freeze|apply inv_creg_freeze|apply inv_get_qubit|apply inv_get_bit
      |apply inv_find_qubit|apply inv_find_bit|apply inv_qubits|apply inv_bits|apply inv_bit_set|apply inv_bit_reset
      |apply inv_cls_num_qubits]; eauto; intros; eapply PI_same; eauto; reflexivity).
  - apply inv_lock. intros. now apply PI_circ.
  - apply PI_upd_circ.
  - unfold reset, unlock. apply inv_bind; [apply PI_upd_circ|]. intros _. apply inv_bind; [|intros _; apply PI_upd_circ].
    destruct keep; [|apply PI_upd_circ]. repeat first [apply inv_item_reset; intros u b l0 y y' _ Hu; exact Hu|pi_step].
  - apply inv_var_put. intros w v0 s y p _ Hi. exact Hi.
  - apply PI_construct.
  - apply PI_call_op.
  - apply PI_set_qubits.
  - apply PI_upd. auto.
  - apply PI_store.
  - apply PI_eval.
  - apply PI_append.
  - unfold extend_ops. apply inv_iterM. intros a. apply PI_append.
  - unfold remove_op. apply inv_bind; [apply inv_get_circ|]. intros x. apply inv_bind; [|intros i; apply PI_upd_circ].
    intros w Hi. pose proof (inv_index_of P ptrue peqb (fun u => u = w) (c_ops x) o 0 w eq_refl) as K. cbn beta in K. rewrite K. exact Hi.
  - apply inv_get_param.
    + intros w s Hi. exact Hi.
    + intros w d0 x vs E _ Hi. exact Hi.
  - unfold call_plain. repeat first [apply PI_call_circuit|pi_step].
  - unfold call_parametric. repeat first [apply PI_call_circuit|apply PI_set_vars|pi_step]. intros w H. exact H.
  - unfold eval_circuit. repeat first [apply PI_evals|pi_step].
  - apply inv_reset_variables. intros w v0 s y _ Hi. exact Hi.
Qed.
Lemma PI_context c : inv PI (@context P c).
Proof.
  intros w Hi. unfold context, mbind, get_circ. destruct (nth_error (w_circ w) c) as [x|] eqn:E; cbn; [|exact Hi].
  destruct (c_ctx x) eqn:Ec; cbn; exact Hi.
Qed.
Lemma PI_enter a : inv PI (@ctx_enter P a).
Proof.
  unfold ctx_enter. apply inv_bind; [apply inv_get_ctx|]. intros cx. apply inv_bind; [apply inv_get_circ|]. intros x.
  destruct (c_locked x); [apply inv_raise|]. apply inv_bind; [apply inv_read|]. intros [b|]; [apply inv_raise|].
  apply inv_bind; [intros w Hi; exact Hi|]. intros _. apply inv_ctx_enter_views. intros; now apply PI_circ.
Qed.
Lemma PI_exit a : inv PI (@ctx_exit P a).
Proof.
  unfold ctx_exit. apply inv_bind; [apply inv_get_ctx|]. intros cx. apply inv_bind; [apply PI_upd_circ|].
  intros _. apply inv_bind; [intros w Hi; exact Hi|].
  intros _. apply inv_bind; [apply inv_read|]. intros fs. apply inv_bind.
  { apply inv_iterM; intros. apply inv_reset_variables. intros w v0 s y _ Hi. exact Hi. }
  intros _. apply inv_bind; [intros w Hi; exact Hi|].
  intros _. apply inv_lock. intros; now apply PI_circ.
Qed.
Lemma PI_frozen b e : inv PI (@set_frozen P b e).
Proof.
  unfold set_frozen. apply inv_bind; [apply inv_read|]. intros [a|]; [|apply inv_raise].
  intros w Hi. unfold mbind, get_ctx. destruct (nth_error (w_ctx w) a); cbn; exact Hi.
Qed.
Lemma PI_visits p (w v : world) : PI w -> visits P ptrue peqb p w v -> PI v.
Proof.
  intros Hw Hv. eapply (visits_inv P ptrue peqb PI (fun _ _ => True)); [..|exact Hv]; auto using PI_context, PI_enter, PI_exit, PI_frozen, executes_true.
  intros u x _. apply PI_call.
Qed.
End Parameters.


Lemma parameters_kept P ptrue peqb ks p (v : world P) k x :
  visits P ptrue peqb p (start P ks) v -> nth_error ks k = Some x ->
  (exists x', nth_error (w_cls v) k = Some x' /\ k_name x' = k_name x /\ k_kind x' = k_kind x) /\
  forall o y, nth_error (w_op v) o = Some y -> o_cls y = k ->
    o_params y = [] \/ has_params (k_kind x) = true /\ k_nparams x = Some (List.length (o_params y)).
Proof.
  intros Hv E. assert (A : PI P k (k_name x) (k_kind x) (k_nparams x) (k_ncontrol x) (start P ks)).
  { split; [exists x; auto|]. intros [|m]; discriminate. }
  destruct (PI_visits P ptrue peqb k _ _ _ _ p _ v A Hv) as [(x' & E' & Nm & K & _) F]. split; [eauto|]. exact F.
Qed.
Lemma control_kept P ptrue peqb ks p (v : world P) k x :
  visits P ptrue peqb p (start P ks) v -> nth_error ks k = Some x -> forall x', nth_error (w_cls v) k = Some x' -> k_ncontrol x' = k_ncontrol x.
Proof.
  intros Hv E x' E'. assert (A : PI P k (k_name x) (k_kind x) (k_nparams x) (k_ncontrol x) (start P ks)).
  { split; [exists x; auto|]. intros [|m]; discriminate. }
  destruct (PI_visits P ptrue peqb k _ _ _ _ p _ v A Hv) as [(y & Ey & _ & _ & _ & H) _]. congruence.
Qed.

(** The number of qubits and of bits of a measurement. *)
From Coq Require Import List ZArith String Bool Arith Lia.
From Verif Require Import Py RegisterModel RegisterSpec WorldModel WorldSpec WorldSpec3 WorldSpec4 WorldReg WorldInv WorldInv2 WorldInv3 WorldInv4 WorldInv5 WorldWf WorldWf2 WorldWf3 WorldOps WorldCtx3 WorldBuild WorldReplay.
Import ListNotations.
Local Open Scope nat_scope.

Section Meas.
Variable P : Type.
Variable ptrue : P -> bool.
Variable peqb : P -> P -> bool.
Notation world := (world P).
Notation M := (M P).
Notation do_call := (do_call ptrue peqb).
Notation inv := (inv P).

Definition counted (k : cls) (y : opobj P) : Prop :=
  o_numq y = match k_numq k, o_qubits y with Some n, _ => Some n | None, Some qs => Some (List.length qs) | None, None => None end.
Definition MI (w : world) : Prop := forall o y k, nth_error (w_op w) o = Some y -> nth_error (w_cls w) (o_cls y) = Some k -> k_kind k = KMeas ->
  counted k y /\ forall l, o_bits y = Some l -> o_numq y = Some (List.length l).

Lemma MI_same (w w' : world) : w_op w' = w_op w -> w_cls w' = w_cls w -> MI w -> MI w'.
Proof. intros H H' F. unfold MI. now rewrite H, H'. Qed.
Lemma MI_op (w : world) o y y' : nth_error (w_op w) o = Some y -> o_cls y' = o_cls y -> o_qubits y' = o_qubits y -> o_numq y' = o_numq y ->
  (o_bits y' = o_bits y \/ exists l, o_bits y' = Some l /\ o_numq y = Some (List.length l)) -> MI w -> MI (set_op w (set_nth o y' (w_op w))).
Proof.
  intros E Hc Hq Hn Hb F n u k Eu Ek Hk. cbn in *. destruct (nth_set_nth_inv (w_op w) o y y' n u E Eu) as [(e & ->)|(_ & Eu')]; [|eapply F; eauto].
  rewrite Hc in Ek. destruct (F o y k E Ek Hk) as [C B]. unfold counted in *. rewrite Hn, Hq. split; [exact C|].
  intros l Hl. destruct Hb as [Hb|(l' & Hb & Hl')]; [|congruence]. apply B. congruence.
Qed.
Lemma MI_settle (w : world) k x a b : nth_error (w_cls w) k = Some x -> k_kind x = KCtrl \/ k_kind x = KParCtrl ->
  nonzero (k_numq x) = false -> k_ncontrol x = Some (S a) -> k_ntarget x = Some (S b) -> MI w ->
  MI (set_cls w (set_nth k (mkCls (k_name x) (k_kind x) (Some (S a + S b)) (k_ncontrol x) (k_ntarget x) (k_nparams x)) (w_cls w))).
Proof.
  intros E Hk _ _ _ F o y k' Eo Ek Hk'. cbn [w_cls set_cls w_op] in *.
  match type of Ek with nth_error (set_nth _ ?t _) _ = _ => destruct (nth_set_nth_inv (w_cls w) k x t (o_cls y) k' E Ek) as [(e & ->)|(_ & Ek')] end; [|eapply F; eauto].
  cbn in Hk'. destruct Hk; congruence.
Qed.

(** ** Construction *)
Section Fresh.
Variables (k : nat) (x : cls) (l : list (opobj P)).
Definition Ic (w : world) : Prop := exists y, w_op w = l ++ [y] /\ o_cls y = k /\ (exists x', nth_error (w_cls w) k = Some x' /\ same_cls x x') /\
  (k_kind x = KMeas -> o_bits y = None /\ counted x y).
Lemma Ic_same (w w' : world) : w_op w' = w_op w -> w_cls w' = w_cls w -> Ic w -> Ic w'.
Proof. intros H H' F. unfold Ic. now rewrite H, H'. Qed.
Lemma Ic_last (w : world) y : w_op w = l ++ [y] -> nth_error (w_op w) (List.length l) = Some y.
Proof. intros ->. apply nth_end. Qed.
Lemma set_last (y y' : opobj P) : set_nth (List.length l) y' (l ++ [y]) = l ++ [y'].
Proof. induction l as [|z m IH]; cbn; [reflexivity|]. now rewrite IH. Qed.
Lemma Ic_upd f : (forall y, o_cls (f y) = o_cls y) ->
  (k_kind x = KMeas -> forall y, o_bits y = None -> counted x y -> o_bits (f y) = None /\ counted x (f y)) -> inv Ic (@upd_op P (List.length l) f).
Proof.
  intros Hc Hf w (y & E & C & X & B). rewrite (upd_op_run P _ f w y (Ic_last w y E)). exists (f y). cbn. rewrite E, set_last.
  split; [reflexivity|]. split; [rewrite Hc; exact C|]. split; [exact X|]. intros K. destruct (B K). now apply Hf.
Qed.
Lemma Ic_settle (w : world) n z a b : nth_error (w_cls w) n = Some z -> k_kind z = KCtrl \/ k_kind z = KParCtrl ->
  nonzero (k_numq z) = false -> k_ncontrol z = Some (S a) -> k_ntarget z = Some (S b) -> Ic w ->
  Ic (set_cls w (set_nth n (mkCls (k_name z) (k_kind z) (Some (S a + S b)) (k_ncontrol z) (k_ntarget z) (k_nparams z)) (w_cls w))).
Proof.
  intros E Hk Hz E1 E2 (y & Ey & C & (x' & Ex & Sx) & B). exists y. split; [exact Ey|]. split; [exact C|]. split; [|exact B]. cbn [w_cls set_cls].
  destruct (Nat.eq_dec n k) as [e|N].
  - rewrite e in *. rewrite Ex in E. injection E as <-. eexists. split; [eapply set_nth_same; eauto|].
    eapply same_cls_trans; [exact Sx|]. repeat split; cbn; auto. right. split; [exact Hk|]. split; [exact Hz|]. exists a, b. auto.
  - exists x'. split; [|exact Sx]. now rewrite set_nth_other.
Qed.
Lemma Ic_append c : inv Ic (append_op ptrue c (List.length l)).
Proof.
  intros w H. assert (H0 := H). destruct H as (y & E & C & (x' & Ex & Sx) & B). pose proof (Ic_last w y E) as Eo.
  destruct (nth_error (w_circ w) c) as [z|] eqn:Ez; [|unfold append_op; now rewrite (bind_err _ _ _ _ _ _ (get_circ_none P c w Ez))].
  rewrite <- C in Ex. destruct (append_run P ptrue w c z (List.length l) y x' Ez Eo Ex) as (v & ps & l' & -> & _).
  exists (with_oparams y ps). cbn. rewrite E, set_last. rewrite C in Ex. split; [reflexivity|]. split; [exact C|]. split; [eauto|exact B].
Qed.
Lemma Ic_check qs : inv Ic (@check_qubits P k qs).
Proof. apply inv_check_qubits. exact Ic_settle. Qed.
Lemma Ic_init qs : inv Ic (op_init ptrue k (List.length l) qs).
Proof.
  unfold op_init. apply inv_bind; [apply inv_read|]. intros act. apply inv_bind.
  - assert (U : forall o, inv Ic (let! z := get_cls k in upd_op (List.length l) (fun y : opobj P => mkOp (o_cls y) o
        (match k_numq z, o with Some n, _ => Some n | None, Some qs => Some (List.length qs) | None, None => None end) (o_params y) (o_control y) (o_target y) (o_bits y) None))).
    { intros o w H. assert (H0 := H). destruct H as (y & E & C & (x' & Ex & Sx) & B).
      assert (G : get_cls k w = (w, Ok x')) by (unfold get_cls; now rewrite Ex). rewrite (bind_ok _ _ _ _ _ _ G).
      apply Ic_upd; [reflexivity| |exact H0]. intros Hk u Hu _. cbn. split; [exact Hu|]. unfold counted. cbn.
      destruct Sx as (_ & _ & _ & _ & _ & [->|([Hc|Hc] & _)]); [|congruence|congruence]. destruct (k_numq x), o; reflexivity. }
    destruct qs as [q|].
    + apply inv_bind; [apply Ic_check|]. intros _. exact (U (Some q)).
    + destruct act; [apply inv_raise|]. intros w H. specialize (U None w H). unfold mbind in *. destruct (get_cls k w) as [w' [z|e]]; [|exact U]. destruct (k_numq z); exact U.
  - intros _. destruct act as [a|]; [|apply inv_ret]. apply inv_bind; [apply inv_get_ctx|]. intros cx. destruct (snd cx); [apply inv_ret|apply Ic_append].
Qed.
Lemma Ic_plain f : (forall y, o_cls (f y) = o_cls y) -> (forall y, o_bits (f y) = o_bits y /\ o_numq (f y) = o_numq y /\ o_qubits (f y) = o_qubits y) -> inv Ic (@upd_op P (List.length l) f).
Proof. intros H G. apply Ic_upd; [exact H|]. intros _ y Hb Hc. destruct (G y) as (-> & G1 & G2). unfold counted in *. rewrite G1, G2. auto. Qed.
Lemma Ic_par ps qs : inv Ic (par_init ptrue x k (List.length l) ps qs).
Proof.
  unfold par_init. apply inv_bind; [apply inv_check_params|]. intros _. apply inv_bind; [|intros _; apply Ic_init].
  apply Ic_plain; [reflexivity|]. auto.
Qed.
End Fresh.

Lemma construct_fresh k ps a (w : world) x : nth_error (w_cls w) k = Some x ->
  Ic k x (w_op w) (fst (construct ptrue k ps a w)).
Proof.
  intros E. unfold construct. assert (G : get_cls k w = (w, Ok x)) by (unfold get_cls; now rewrite E). rewrite (bind_ok _ _ _ _ _ _ G).
  rewrite (read_bind P). unfold mbind at 1. cbv beta iota.
  match goal with |- Ic _ _ _ (fst (?m ?u)) => assert (K : inv (Ic k x (w_op w)) m); [|apply K] end.
  - apply inv_bind; [|intros _; apply inv_ret].
    destruct (k_kind x), ps, a; try apply inv_raise; try apply Ic_init; try apply Ic_par;
      destruct (split_args x _) as [[ctl tgt] ql]; (apply inv_bind; [apply Ic_plain; [reflexivity|auto]|]); intros _; try apply Ic_init;
      (apply inv_bind; [apply Ic_par|]); intros _; apply Ic_plain; auto.
  - eexists. split; [reflexivity|]. split; [reflexivity|]. split; [exists x; split; [exact E|apply same_cls_refl]|]. intros _. cbn. split; [reflexivity|].
    unfold counted. cbn. now destruct (k_numq x).
Qed.

(** ** Every call *)
Definition MJ (w : world) : Prop := MI w /\ forall o y, nth_error (w_op w) o = Some y -> o_cls y < List.length (w_cls w).
Lemma MJ_same (w w' : world) : w_op w' = w_op w -> w_cls w' = w_cls w -> MJ w -> MJ w'.
Proof. intros H H' F. unfold MJ, MI. now rewrite H, H'. Qed.
Lemma MJ_op (w : world) o y y' : nth_error (w_op w) o = Some y -> o_cls y' = o_cls y -> o_qubits y' = o_qubits y -> o_numq y' = o_numq y ->
  (o_bits y' = o_bits y \/ exists l, o_bits y' = Some l /\ o_numq y = Some (List.length l)) -> MJ w -> MJ (set_op w (set_nth o y' (w_op w))).
Proof.
  intros E Hc Hq Hn Hb [F L]. split; [eapply MI_op; eauto|]. intros n u Eu. cbn in *.
  destruct (nth_set_nth_inv (w_op w) o y y' n u E Eu) as [(e & ->)|(_ & Eu')]; [|eauto]. rewrite Hc. eauto.
Qed.
Lemma MJ_settle (w : world) k x a b : nth_error (w_cls w) k = Some x -> k_kind x = KCtrl \/ k_kind x = KParCtrl ->
  nonzero (k_numq x) = false -> k_ncontrol x = Some (S a) -> k_ntarget x = Some (S b) -> MJ w ->
  MJ (set_cls w (set_nth k (mkCls (k_name x) (k_kind x) (Some (S a + S b)) (k_ncontrol x) (k_ntarget x) (k_nparams x)) (w_cls w))).
Proof. intros E Hk Hz E1 E2 [F L]. split; [now apply MI_settle|]. intros o y Ey. cbn [w_cls set_cls w_op] in *. rewrite set_nth_length. eauto. Qed.
Lemma MJ_construct k ps a : inv MJ (construct ptrue k ps a).
Proof.
  intros w [F L]. destruct (nth_error (w_cls w) k) as [x|] eqn:E.
  2: { unfold construct. assert (G : get_cls k w = (w, Err Undefined)) by (unfold get_cls; now rewrite E). rewrite (bind_err _ _ _ _ _ _ G). now split. }
  destruct (construct_fresh k ps a w x E) as (y & Ey & C & (x' & Ex & Sx) & B).
  assert (G : kept P w (fst (construct ptrue k ps a w))).
  { pose proof (kept_call P ptrue peqb w (CConstruct k ps a) w (kept_refl P w)) as G. cbn [WorldModel.do_call] in G. unfold unit_of in G.
    destruct (construct ptrue k ps a w) as [w1 [n|e]] eqn:Ec; [rewrite (bind_ok _ _ _ _ _ _ Ec) in G|rewrite (bind_err _ _ _ _ _ _ Ec) in G]; exact G. }
  set (w' := fst (construct ptrue k ps a w)) in *.
  assert (Hl : forall n z, nth_error (w_cls w) n = Some z -> n < List.length (w_cls w')).
  { intros n z Hn. destruct (g_cls _ _ _ G _ _ Hn) as (z' & Hz & _). apply nth_error_Some. congruence. }
  split.
  - intros o u ku Eu Ek Hk. rewrite Ey in Eu. destruct (Nat.lt_ge_cases o (List.length (w_op w))) as [Lo|Lo].
    + rewrite nth_error_app1 in Eu by exact Lo. pose proof (L o u Eu) as Lc.
      destruct (nth_error (w_cls w) (o_cls u)) as [k0|] eqn:E0; [|apply nth_error_None in E0; lia].
      destruct (g_cls _ _ _ G _ _ E0) as (k1 & E1 & S1). rewrite Ek in E1. injection E1 as <-.
      destruct S1 as (_ & K & _ & _ & _ & N). rewrite K in Hk. destruct (F o u k0 Eu E0 Hk) as [C0 B0]. split; [|exact B0].
      unfold counted in *. destruct N as [->|([N|N] & _)]; [exact C0|congruence|congruence].
    + rewrite nth_error_app2 in Eu by exact Lo. destruct (o - List.length (w_op w)) as [|[|n]]; cbn in Eu; try discriminate. injection Eu as <-.
      rewrite C, Ex in Ek. injection Ek as <-. destruct Sx as (_ & K & _ & _ & _ & N). rewrite K in Hk. destruct (B Hk) as [Hb Hc]. split.
      * unfold counted in *. destruct N as [->|([N|N] & _)]; [exact Hc|congruence|congruence].
      * intros l Hl'. congruence.
  - intros o u Eu. rewrite Ey in Eu. destruct (Nat.lt_ge_cases o (List.length (w_op w))) as [Lo|Lo].
    + rewrite nth_error_app1 in Eu by exact Lo. pose proof (L o u Eu) as Lc.
      destruct (nth_error (w_cls w) (o_cls u)) as [k0|] eqn:E0; [eauto|apply nth_error_None in E0; lia].
    + rewrite nth_error_app2 in Eu by exact Lo. destruct (o - List.length (w_op w)) as [|[|n]]; cbn in Eu; try discriminate. injection Eu as <-.
      rewrite C. eauto.
Qed.
Lemma MJ_store o bs : inv MJ (@store P o bs).
Proof.
  intros w F. unfold store, get_op, get_cls, put_op, mbind. destruct (nth_error (w_op w) o) as [y|] eqn:E; cbn [the ret raise fst snd]; [|exact F].
  destruct (nth_error (w_cls w) (o_cls y)) as [k|]; cbn [the ret raise fst snd]; [|exact F]. destruct (k_kind k); try exact F. destruct (o_numq y) as [n|] eqn:En; [|exact F].
  destruct (Nat.ltb (List.length bs) n) eqn:Lt; [exact F|]. cbn. eapply MJ_op; eauto.
  right. exists (firstn n bs). split; [reflexivity|]. rewrite firstn_length. apply Nat.ltb_ge in Lt. rewrite En. f_equal. lia.
Qed.
Lemma MJ_upd o f : (forall y : opobj P, o_cls (f y) = o_cls y /\ o_qubits (f y) = o_qubits y /\ o_numq (f y) = o_numq y /\ o_bits (f y) = o_bits y) -> inv MJ (@upd_op P o f).
Proof.
  intros H w F. destruct (nth_error (w_op w) o) as [y|] eqn:E.
  - rewrite (upd_op_run P o f w y E). cbn. destruct (H y) as (H1 & H2 & H3 & H4). eapply MJ_op; eauto.
  - unfold upd_op, get_op, mbind. rewrite E. exact F.
Qed.
Lemma MJ_eval o g : inv MJ (@op_eval P ptrue o g).
Proof.
  intros w F. unfold op_eval, get_op, mbind, read, put_op, lift. destruct (nth_error (w_op w) o) as [y|] eqn:E; cbn; [|exact F].
  destruct (snd (eval_loop ptrue w 0 g (o_params y))); cbn; eapply MJ_op; eauto.
Qed.
Lemma MJ_circ (w : world) l : MJ w -> MJ (set_circ w l). Proof. exact (fun H => H). Qed.
Ltac mj_step := first
  [ apply inv_ret | apply inv_raise | apply inv_lift | apply inv_read | apply inv_get_circ | apply inv_get_op | apply inv_get_cls
  | apply inv_get_ctx | apply inv_regget | apply inv_first_label | apply inv_star_args | apply inv_check_params
  | apply MJ_construct | apply MJ_store | apply MJ_eval
  | apply inv_qubits; intros; now apply MJ_circ | apply inv_bits; intros; now apply MJ_circ
  | apply inv_when | apply inv_iterM; intros ?
  | match goal with |- WorldWf.inv _ _ (match ?b with _ => _ end) => destruct b end
  | apply inv_bind; [|intros ?] ].
Lemma MJ_upd_circ c f : inv MJ (@upd_circ P c f).
Proof.
  intros w Hi. destruct (nth_error (w_circ w) c) as [x|] eqn:E.
  - rewrite (upd_circ_run P c f w x E). exact Hi.
  - unfold upd_circ. rewrite (bind_err _ _ _ _ _ _ (get_circ_none P c w E)). exact Hi.
Qed.
Lemma MJ_check_own c v : inv MJ (@check_own P c v). Proof. unfold check_own. repeat mj_step. Qed.
Lemma MJ_append c o : inv MJ (append_op ptrue c o).
Proof. unfold append_op. repeat first [apply MJ_check_own|apply MJ_upd_circ|mj_step]. Qed.
Lemma MJ_call_op o a : inv MJ (call_op ptrue o a). Proof. unfold call_op. repeat mj_step. Qed.
Lemma MJ_replay qm bm o : inv MJ (replay ptrue qm bm o). Proof. unfold replay. repeat mj_step. Qed.
Lemma MJ_call_circuit t qs ba : inv MJ (call_circuit ptrue t qs ba).
Proof. unfold call_circuit. repeat first [apply MJ_replay|mj_step]. Qed.
Lemma MJ_set_vars vs : forall ps, inv MJ (@set_vars P vs ps).
Proof. intros ps. apply inv_set_vars. intros w v s y p _ Hi. exact Hi. Qed.
Lemma MJ_evals g os : forall i, inv MJ (@eval_ops P ptrue i g os).
Proof. induction os as [|o os IH]; intros i; cbn [eval_ops]; repeat first [apply IH|mj_step]. Qed.
Lemma MJ_call x : ~ sets_qubits P x -> inv MJ (do_call x).
Proof.
  intros Hr.
  assert (I1 : forall (w : world) c x f, quiet_upd f -> nth_error (w_circ w) c = Some x -> MJ w -> MJ (set_circ w (set_nth c (f x) (w_circ w)))) by (intros; now apply MJ_circ).
  assert (I2 := MJ_settle).
  destruct x; cbn [WorldModel.do_call]; simpl in Hr; try (exfalso; now apply Hr); try apply inv_unit_of;
    try (first [apply inv_new_circuit|apply inv_new_qubit|apply inv_new_bit|apply inv_new_var|apply inv_add_qubit|apply inv_add_bit|apply inv_add_qregister|apply inv_add_cregister
      |apply inv_qreg_add|apply inv_creg_add|apply inv_qreg_freeze|apply inv_creg_freeze|apply inv_get_qubit|apply inv_get_bit
      |apply inv_find_qubit|apply inv_find_bit|apply inv_qubits|apply inv_bits|apply inv_bit_set|apply inv_bit_reset
      |apply inv_cls_num_qubits]; eauto; intros; eapply MJ_same; eauto; reflexivity).
  - apply inv_lock. intros. now apply MJ_circ.
  - apply MJ_upd_circ.
  - unfold reset, unlock. apply inv_bind; [apply MJ_upd_circ|]. intros _. apply inv_bind; [|intros _; apply MJ_upd_circ].
    destruct keep; [|apply MJ_upd_circ]. repeat first [apply inv_item_reset; intros u b l0 y y' _ Hu; exact Hu|mj_step].
  - apply inv_var_put. intros w v0 s y p _ Hi. exact Hi.
  - apply MJ_construct.
  - apply MJ_call_op.
  - apply MJ_upd. auto.
  - apply MJ_store.
  - apply MJ_eval.
  - apply MJ_append.
  - unfold extend_ops. apply inv_iterM. intros a. apply MJ_append.
  - unfold remove_op. apply inv_bind; [apply inv_get_circ|]. intros x. apply inv_bind; [|intros i; apply MJ_upd_circ].
    intros w Hi. pose proof (inv_index_of P ptrue peqb (fun u => u = w) (c_ops x) o 0 w eq_refl) as K. cbn beta in K. rewrite K. exact Hi.
  - apply inv_get_param.
    + intros w s Hi. exact Hi.
    + intros w d0 x vs E _ Hi. exact Hi.
  - unfold call_plain. repeat first [apply MJ_call_circuit|mj_step].
  - unfold call_parametric. repeat first [apply MJ_call_circuit|apply MJ_set_vars|mj_step]. intros w H. exact H.
  - unfold eval_circuit. repeat first [apply MJ_evals|mj_step].
  - apply inv_reset_variables. intros w v0 s y _ Hi. exact Hi.
Qed.
Lemma MJ_context c : inv MJ (@context P c).
Proof.
  intros w Hi. unfold context, mbind, get_circ. destruct (nth_error (w_circ w) c) as [x|] eqn:E; cbn; [|exact Hi].
  destruct (c_ctx x) eqn:Ec; cbn; exact Hi.
Qed.
Lemma MJ_enter a : inv MJ (@ctx_enter P a).
Proof.
  unfold ctx_enter. apply inv_bind; [apply inv_get_ctx|]. intros cx. apply inv_bind; [apply inv_get_circ|]. intros x.
  destruct (c_locked x); [apply inv_raise|]. apply inv_bind; [apply inv_read|]. intros [b|]; [apply inv_raise|].
  apply inv_bind; [intros w Hi; exact Hi|]. intros _. apply inv_ctx_enter_views. intros; now apply MJ_circ.
Qed.
Lemma MJ_exit a : inv MJ (@ctx_exit P a).
Proof.
  unfold ctx_exit. apply inv_bind; [apply inv_get_ctx|]. intros cx. apply inv_bind; [apply MJ_upd_circ|].
  intros _. apply inv_bind; [intros w Hi; exact Hi|].
  intros _. apply inv_bind; [apply inv_read|]. intros fs. apply inv_bind.
  { apply inv_iterM; intros. apply inv_reset_variables. intros w v0 s y _ Hi. exact Hi. }
  intros _. apply inv_bind; [intros w Hi; exact Hi|].
  intros _. apply inv_lock. intros; now apply MJ_circ.
Qed.
Lemma MJ_frozen b e : inv MJ (@set_frozen P b e).
Proof.
  unfold set_frozen. apply inv_bind; [apply inv_read|]. intros [a|]; [|apply inv_raise].
  intros w Hi. unfold mbind, get_ctx. destruct (nth_error (w_ctx w) a); cbn; exact Hi.
Qed.
Theorem MI_reach v : reaches P ptrue peqb (fun _ x => ~ sets_qubits P x) v -> MI v.
Proof.
  intros (ks & p & He & Hv). assert (K : MJ v); [|apply K].
  eapply (visits_inv P ptrue peqb MJ (fun _ x => ~ sets_qubits P x)); eauto using MJ_context, MJ_enter, MJ_exit, MJ_frozen.
  - intros w x Hx H. now apply MJ_call.
  - split; intros [|o]; discriminate.
Qed.
End Meas.

(** What every piece of code keeps: objects are never lost and references stay valid. *)
From Coq Require Import List ZArith String Bool Arith Lia.
From Verif Require Import Py RegisterModel WorldModel WorldSpec WorldInv WorldInv2 WorldInv5.
Import ListNotations.
Local Open Scope nat_scope.

Section Wf.
Variable P : Type.
Variable ptrue : P -> bool.
Variable peqb : P -> P -> bool.
Notation world := (world P).
Notation M := (M P).

(** ** Code that keeps a property of the heap *)
Definition inv (I : world -> Prop) {A} (m : M A) : Prop := forall w, I w -> I (fst (m w)).

Section Inv.
Variable I : world -> Prop.

Lemma inv_bind {A B} (m : M A) (k : A -> M B) : inv I m -> (forall a, inv I (k a)) -> inv I (mbind m k).
Proof.
  intros H K w Hi. unfold mbind. specialize (H w Hi). destruct (m w) as [w' [a|e]]; [|exact H]. now apply K.
Qed.
Lemma inv_id {A} (m : M A) : (forall w, fst (m w) = w) -> inv I m.
Proof. intros H w Hi. now rewrite H. Qed.
Lemma inv_ret {A} (a : A) : inv I (ret a). Proof. now apply inv_id. Qed.
Lemma inv_raise {A} e : inv I (@raise P A e). Proof. now apply inv_id. Qed.
Lemma inv_lift {A} (r : res A) : inv I (lift r). Proof. now apply inv_id. Qed.
Lemma inv_read {A} (f : world -> A) : inv I (read f). Proof. now apply inv_id. Qed.
Lemma get_circ_id c (w : world) : fst (get_circ c w) = w.
Proof. unfold get_circ. now destruct (nth_error (w_circ w) c). Qed.
Lemma get_op_id c (w : world) : fst (get_op c w) = w.
Proof. unfold get_op. now destruct (nth_error (w_op w) c). Qed.
Lemma get_cls_id c (w : world) : fst (get_cls c w) = w.
Proof. unfold get_cls. now destruct (nth_error (w_cls w) c). Qed.
Lemma get_ctx_id c (w : world) : fst (get_ctx c w) = w.
Proof. unfold get_ctx. now destruct (nth_error (w_ctx w) c). Qed.
Lemma inv_the {A} (o : option A) : inv I (@the P A o). Proof. apply inv_id. now destruct o. Qed.
Lemma inv_get_circ c : inv I (@get_circ P c). Proof. apply inv_id, get_circ_id. Qed.
Lemma inv_get_op c : inv I (@get_op P c). Proof. apply inv_id, get_op_id. Qed.
Lemma inv_get_cls c : inv I (@get_cls P c). Proof. apply inv_id, get_cls_id. Qed.
Lemma inv_get_ctx c : inv I (@get_ctx P c). Proof. apply inv_id, get_ctx_id. Qed.
Lemma inv_when b (m : M unit) : inv I m -> inv I (when b m).
Proof. destruct b; simpl; auto using inv_ret. Qed.
Lemma inv_iterM {A} (f : A -> M unit) l : (forall a, inv I (f a)) -> inv I (iterM f l).
Proof. intros H. induction l; simpl; [apply inv_ret|]. apply inv_bind; auto. Qed.
Lemma inv_qubit_exists a : inv I (@qubit_exists P a).
Proof.
  destruct a; simpl; try apply inv_ret. apply inv_id. intros w. unfold mbind, the. now destruct (nth_error (w_qubit w) i).
Qed.
Lemma inv_bit_exists a : inv I (@bit_exists P a).
Proof.
  destruct a; simpl; try apply inv_ret. apply inv_id. intros w. unfold mbind, the. now destruct (nth_error (w_bit w) i).
Qed.
Lemma inv_regget l s : inv I (@regget P l s).
Proof. unfold regget. destruct (dget label_eqb l (s_regs s)); [apply inv_ret|apply inv_raise]. Qed.
Lemma inv_first_label s : inv I (@first_label P s).
Proof. unfold first_label. destruct (s_regs s) as [|[l r] t]; [apply inv_raise|apply inv_ret]. Qed.
Lemma inv_get_qubit c l rl all : inv I (@get_qubit P c l rl all).
Proof.
  unfold get_qubit. apply inv_bind; [apply inv_get_circ|]. intros x. apply inv_bind; [apply inv_lift|]. intros its. now apply inv_id.
Qed.
Lemma inv_get_bit c l rl all : inv I (@get_bit P c l rl all).
Proof.
  unfold get_bit. apply inv_bind; [apply inv_get_circ|]. intros x. apply inv_bind; [apply inv_lift|]. intros its. now apply inv_id.
Qed.
Lemma inv_find_qubit c v : inv I (@find_qubit P c v).
Proof. unfold find_qubit. apply inv_bind; [apply inv_get_circ|]. intros x. apply inv_lift. Qed.
Lemma inv_find_bit c v : inv I (@find_bit P c v).
Proof. unfold find_bit. apply inv_bind; [apply inv_get_circ|]. intros x. apply inv_lift. Qed.
Lemma inv_star_args l : inv I (@star_args P l).
Proof. destruct l as [|a [|b [|c l]]]; simpl; try apply inv_ret; apply inv_raise. Qed.
Lemma inv_check_params x ps : inv I (@check_params P x ps).
Proof. unfold check_params. destruct (k_nparams x); [|apply inv_raise]. destruct (Nat.eqb _ _); [apply inv_ret|apply inv_raise]. Qed.

(** ** The elementary changes *)
(** A circuit other than its operations, its lock and its context. *)
Definition quiet_upd (f : circ -> circ) : Prop :=
  forall x, c_ops (f x) = c_ops x /\ c_locked (f x) = c_locked x /\ c_ctx (f x) = c_ctx x /\ c_par (f x) = c_par x /\
    c_vars (f x) = c_vars x.
Hypothesis I_circ : forall w c x f, quiet_upd f -> nth_error (w_circ w) c = Some x -> I w -> I (set_circ w (set_nth c (f x) (w_circ w))).
Hypothesis I_new : forall w par, I w -> I (set_circ w (w_circ w ++ [mkCirc [] (mkSide [] None) (mkSide [] None) false None par [] false])).
Hypothesis I_qubit : forall w l, I w -> I (set_qubit w (w_qubit w ++ l)).
Hypothesis I_bit : forall w l, I w -> I (set_bit w (w_bit w ++ l)).
Hypothesis I_var : forall w s, I w -> I (set_var w (w_var w ++ [(s, None)])).
Hypothesis I_op : forall w k, k < List.length (w_cls w) -> forall n, I w -> I (set_op w (w_op w ++ [mkOp k None n [] None None None None])).
Hypothesis I_upd : forall w o x y, nth_error (w_op w) o = Some x -> o_cls y = o_cls x -> I w -> I (set_op w (set_nth o y (w_op w))).
Hypothesis I_settle : forall w k x a b, nth_error (w_cls w) k = Some x -> k_kind x = KCtrl \/ k_kind x = KParCtrl ->
  nonzero (k_numq x) = false -> k_ncontrol x = Some (S a) -> k_ntarget x = Some (S b) -> I w ->
  I (set_cls w (set_nth k (mkCls (k_name x) (k_kind x) (Some (S a + S b)) (k_ncontrol x) (k_ntarget x) (k_nparams x)) (w_cls w))).
Hypothesis I_append : forall w c x o y, nth_error (w_circ w) c = Some x -> c_locked x = false -> nth_error (w_op w) o = Some y ->
  I w -> I (set_circ w (set_nth c (with_ops x (c_ops x ++ [o])) (w_circ w))).

Lemma inv_upd_circ c f : quiet_upd f -> inv I (@upd_circ P c f).
Proof.
  intros Hf w Hi. destruct (nth_error (w_circ w) c) as [x|] eqn:E.
  - rewrite (upd_circ_run P c f w x E). cbn. now apply I_circ.
  - unfold upd_circ. rewrite (bind_err _ _ _ _ _ _ (get_circ_none P c w E)). exact Hi.
Qed.
Lemma inv_upd_op o f : (forall x, o_cls (f x) = o_cls x) -> inv I (@upd_op P o f).
Proof.
  intros Hf w Hi. unfold upd_op, mbind, get_op. destruct (nth_error (w_op w) o) as [x|] eqn:E; cbn; [|exact Hi].
  eapply I_upd; eauto.
Qed.
Lemma inv_qubits c : inv I (@qubits P c).
Proof.
  intros w Hi. destruct (qubits_any P c w) as [->|(x & r & E & ->)]; [exact Hi|].
  unfold cached_q. apply (I_circ w c x (fun y => with_q y _)); auto. intros y. auto.
Qed.
Lemma inv_bits c : inv I (@bits P c).
Proof.
  intros w Hi. destruct (bits_any P c w) as [->|(x & r & E & ->)]; [exact Hi|].
  unfold cached_b. apply (I_circ w c x (fun y => with_b y _)); auto. intros y. auto.
Qed.
Lemma inv_new_qubit l : inv I (@new_qubit P l). Proof. intros w Hi. cbn. now apply I_qubit. Qed.
Lemma inv_new_bit l : inv I (@new_bit P l). Proof. intros w Hi. cbn. now apply I_bit. Qed.
Lemma inv_new_var l : inv I (@new_var P l). Proof. intros w Hi. cbn. now apply I_var. Qed.
Lemma inv_settle k : inv I (@settle P k).
Proof.
  unfold settle. intros w Hi. unfold mbind, get_cls. destruct (nth_error (w_cls w) k) as [x|] eqn:E; cbn; [|exact Hi].
  assert (G : forall kd, k_kind x = kd -> kd = KCtrl \/ kd = KParCtrl -> 
    I (fst ((if negb (nonzero (k_numq x)) && nonzero (k_ncontrol x) && nonzero (k_ntarget x) then
        match k_ncontrol x, k_ntarget x with
        | Some a, Some b => fun w =>
            (set_cls w (set_nth k (mkCls (k_name x) kd (Some (a + b)) (k_ncontrol x) (k_ntarget x) (k_nparams x)) (w_cls w)), Ok tt)
        | _, _ => ret tt
        end
      else ret tt) w))).
  { intros kd <- Hk. destruct (nonzero (k_numq x)) eqn:N; [exact Hi|].
    destruct (k_ncontrol x) as [[|a]|] eqn:E1; try exact Hi.
    destruct (k_ntarget x) as [[|b]|] eqn:E2; try exact Hi.
    cbn [negb andb nonzero]. rewrite <- E1, <- E2. cbn [fst]. now apply I_settle. }
  destruct (k_kind x) eqn:K; try exact Hi; apply G; auto.
Qed.

Ltac iv_step := first
  [ apply inv_ret | apply inv_raise | apply inv_lift | apply inv_read | apply inv_get_circ | apply inv_get_op | apply inv_get_cls
  | apply inv_get_ctx | apply inv_qubits | apply inv_bits | apply inv_new_qubit | apply inv_new_bit | apply inv_new_var
  | apply inv_settle | apply inv_regget | apply inv_first_label | apply inv_qubit_exists | apply inv_bit_exists
  | apply inv_star_args | apply inv_check_params
  | apply inv_when | apply inv_iterM; intros ?
  | apply inv_upd_circ; intros ?; repeat split; fail
  | apply inv_upd_op; intros ?; reflexivity
  | match goal with |- inv _ (match ?b with _ => _ end) => destruct b end
  | apply inv_bind; [|intros ?] ].
Ltac iv := repeat iv_step.

Lemma inv_num_qubits c : inv I (@num_qubits P c). Proof. unfold num_qubits. iv. Qed.
Lemma inv_num_bits c : inv I (@num_bits P c). Proof. unfold num_bits. iv. Qed.
Lemma inv_new_qubits n : forall a, inv I (@new_qubits P a n).
Proof. induction n; intros a; simpl; repeat first [apply IHn|iv_step]. Qed.
Lemma inv_new_bits n : forall a, inv I (@new_bits P a n).
Proof. induction n; intros a; simpl; repeat first [apply IHn|iv_step]. Qed.
Lemma inv_put_qreg c l r : inv I (@put_qreg P c l r). Proof. unfold put_qreg. iv. Qed.
Lemma inv_put_creg c l r : inv I (@put_creg P c l r). Proof. unfold put_creg. iv. Qed.
Lemma inv_add_qregister c n l : inv I (@add_qregister P c n l).
Proof. unfold add_qregister, drop_qcache. repeat first [apply inv_num_qubits|apply inv_new_qubits|apply inv_put_qreg|iv_step]. Qed.
Lemma inv_add_cregister c n l : inv I (@add_cregister P c n l).
Proof. unfold add_cregister, drop_bcache. repeat first [apply inv_num_bits|apply inv_new_bits|apply inv_put_creg|iv_step]. Qed.
Lemma inv_add_qubit c a l : inv I (@add_qubit P c a l).
Proof. unfold add_qubit, drop_qcache. repeat first [apply inv_add_qregister|apply inv_num_qubits|apply inv_put_qreg|iv_step]. Qed.
Lemma inv_add_bit c a l : inv I (@add_bit P c a l).
Proof. unfold add_bit, drop_bcache. repeat first [apply inv_add_cregister|apply inv_num_bits|apply inv_put_creg|iv_step]. Qed.
Lemma inv_qreg_add c l vs : inv I (@qreg_add P c l vs).
Proof. unfold qreg_add. repeat first [apply inv_put_qreg|iv_step]. Qed.
Lemma inv_creg_add c l vs : inv I (@creg_add P c l vs).
Proof. unfold creg_add. repeat first [apply inv_put_creg|iv_step]. Qed.
Lemma inv_qreg_freeze c l : inv I (@qreg_freeze P c l).
Proof. unfold qreg_freeze. repeat first [apply inv_put_qreg|iv_step]. Qed.
Lemma inv_creg_freeze c l : inv I (@creg_freeze P c l).
Proof. unfold creg_freeze. repeat first [apply inv_put_creg|iv_step]. Qed.
Lemma inv_new_circuit par nq nb : inv I (@new_circuit P par nq nb).
Proof.
  unfold new_circuit. apply inv_bind; [iv|]. intros c. apply inv_bind; [intros w; apply I_new|]. intros _.
  repeat first [apply inv_add_qregister|apply inv_add_cregister|iv_step].
Qed.
(** Operations *)
Lemma inv_cls_num_qubits k : inv I (@cls_num_qubits P k). Proof. unfold cls_num_qubits. iv. Qed.
Lemma inv_check_qubits k qs : inv I (@check_qubits P k qs).
Proof. unfold check_qubits. repeat first [apply inv_cls_num_qubits|iv_step]. Qed.
Lemma inv_op_eval o g : inv I (op_eval ptrue o g).
Proof.
  intros w Hi. unfold op_eval, mbind, get_op. destruct (nth_error (w_op w) o) as [x|] eqn:E; cbn; [|exact Hi].
  eapply I_upd; eauto.
Qed.
Lemma inv_check_own c v : inv I (@check_own P c v). Proof. unfold check_own. iv. Qed.

(** What holds throughout [append]. *)
Lemma qubits_frame c (w : world) : exists x', 
  w_op (fst (qubits c w)) = w_op w /\ w_cls (fst (qubits c w)) = w_cls w /\
  (forall d, d <> c -> nth_error (w_circ (fst (qubits c w))) d = nth_error (w_circ w) d) /\
  (forall x, nth_error (w_circ w) c = Some x -> nth_error (w_circ (fst (qubits c w))) c = Some x' /\ c_locked x' = c_locked x /\ c_ops x' = c_ops x).
Proof.
  destruct (nth_error (w_circ w) c) as [x|] eqn:E.
  - destruct (qubits_any P c w) as [->|(x0 & r & E0 & ->)].
    + exists x. repeat split; congruence.
    + rewrite E in E0. injection E0 as <-. exists (with_q x (mkSide (s_regs (c_q x)) (Some r))).
      split; [reflexivity|]. split; [reflexivity|]. split.
      * intros d Hd. cbn. apply set_nth_other. congruence.
      * intros x1 [= <-]. cbn. split; [eapply set_nth_same; eauto|auto].
  - rewrite (qubits_undefined P c w E). cbn. exists (mkCirc [] (mkSide [] None) (mkSide [] None) false None false [] false).
    repeat split; try reflexivity; discriminate.
Qed.

Definition open_circ (c o : nat) (w : world) : Prop :=
  (exists x, nth_error (w_circ w) c = Some x /\ c_locked x = false) /\ o < List.length (w_op w).
Lemma open_check c o v : inv (open_circ c o) (@check_own P c v).
Proof.
  intros w ((x & E & L) & Ho). unfold check_own, mbind.
  destruct (qubits_frame c w) as (x' & H1 & H2 & H3 & H4). destruct (H4 x E) as (E' & L' & _).
  assert (G : open_circ c o (fst (qubits c w))).
  { split; [exists x'; split; [exact E'|congruence]|]. now rewrite H1. }
  destruct (qubits c w) as [w' [r|e]]; cbn in *; [|exact G].
  destruct (count (core r) v) as [b|e]; cbn; [destruct b; exact G|exact G].
Qed.
Lemma open_eval c o g : inv (open_circ c o) (op_eval ptrue o g).
Proof.
  intros w ((x & E & L) & Ho). unfold op_eval, mbind, get_op.
  destruct (nth_error (w_op w) o) as [y|] eqn:Eo; cbn; (split; [exists x; auto|]); [|exact Ho].
  cbn. now rewrite set_nth_length.
Qed.

Lemma inv_and (J : world -> Prop) {A} (m : M A) : inv I m -> inv J m -> inv (fun w => I w /\ J w) m.
Proof. intros H K w [Hi Hj]. split; auto. Qed.

Lemma inv_append_op c o : inv I (append_op ptrue c o).
Proof.
  intros w Hi. unfold append_op. destruct (nth_error (w_circ w) c) as [x|] eqn:E;
    [rewrite (bind_ok _ _ _ _ _ _ (get_circ_some P c w x E))|rewrite (bind_err _ _ _ _ _ _ (get_circ_none P c w E)); exact Hi].
  destruct (c_locked x) eqn:L; [exact Hi|].
  unfold mbind at 1, get_op. destruct (nth_error (w_op w) o) as [y|] eqn:Eo; cbn [the ret raise]; [|exact Hi].
  unfold mbind at 1, get_cls. destruct (nth_error (w_cls w) (o_cls y)) as [k|] eqn:Ek; cbn [the ret raise]; [|exact Hi].
  assert (Hio : I w /\ open_circ c o w).
  { split; [exact Hi|]. split; [exists x; auto|]. apply nth_error_Some. congruence. }
  unfold mbind at 1.
  assert (H1 := inv_and (open_circ c o) _ (inv_when (negb (parametric x) && has_params (k_kind k)) _ (inv_op_eval o None))).
  assert (H2 : inv (open_circ c o) (when (negb (parametric x) && has_params (k_kind k)) (op_eval ptrue o None))).
  { destruct (negb (parametric x) && has_params (k_kind k)); simpl; [apply open_eval|]. intros v Hv. exact Hv. }
  specialize (H1 H2 w Hio). clear H2.
  destruct (when _ _ w) as [w1 [u|e]]; cbn in H1; [|apply H1].
  unfold mbind.
  assert (H3 : inv (fun w => I w /\ open_circ c o w) (iterM (@check_own P c) (oqubits y))).
  { generalize (oqubits y). intros l. induction l as [|a l IH]; simpl; intros v Hv; [exact Hv|]. unfold mbind.
    assert (G := inv_and (open_circ c o) _ (inv_check_own c a) (open_check c o a) v Hv).
    destruct (check_own c a v) as [v' [b|e]]; cbn in G |- *; [now apply IH|exact G]. }
  specialize (H3 w1 H1). destruct (iterM (check_own c) (oqubits y) w1) as [w2 [u'|e]]; cbn in H3; [|apply H3].
  destruct H3 as [Hi2 ((x2 & E2 & L2) & Ho2)]. rewrite (upd_circ_run P c _ w2 x2 E2). cbn.
  destruct (nth_error (w_op w2) o) as [y2|] eqn:Eo2; [|apply nth_error_None in Eo2; lia].
  eapply I_append; eauto.
Qed.
Lemma inv_op_init k o qs : inv I (op_init ptrue k o qs).
Proof. unfold op_init. repeat first [apply inv_append_op|apply inv_check_qubits|iv_step]. Qed.
Lemma inv_par_init x k o ps qs : inv I (par_init ptrue x k o ps qs).
Proof. unfold par_init. repeat first [apply inv_op_init|iv_step]. Qed.
Lemma inv_construct k ps a : inv I (construct ptrue k ps a).
Proof.
  intros w Hi. unfold construct. unfold mbind at 1, get_cls.
  destruct (nth_error (w_cls w) k) as [x|] eqn:E; cbn [the ret raise]; [|exact Hi].
  unfold mbind at 1, read. unfold mbind at 1. cbn [fst].
  assert (H : I (set_op w (w_op w ++ [mkOp k None (k_numq x) [] None None None None]))).
  { apply I_op; [|exact Hi]. apply nth_error_Some. congruence. }
  match goal with |- I (fst (?m _)) => assert (G : inv I m); [|now apply G] end.
  repeat first [apply inv_par_init|apply inv_op_init|iv_step].
Qed.
Lemma inv_call_op o a : inv I (call_op ptrue o a).
Proof. unfold call_op. repeat first [apply inv_construct|iv_step]. Qed.
Lemma inv_set_qubits o qs : inv I (@set_qubits P o qs).
Proof. unfold set_qubits. repeat first [apply inv_check_qubits|iv_step]. Qed.
Lemma inv_conditional o bs : inv I (@conditional P o bs). Proof. unfold conditional. iv. Qed.
Lemma inv_store o bs : inv I (@store P o bs).
Proof.
  intros w Hi. unfold store, mbind, get_op. destruct (nth_error (w_op w) o) as [x|] eqn:E; cbn [the ret raise]; [|exact Hi].
  unfold get_cls. destruct (nth_error (w_cls w) (o_cls x)) as [k|]; cbn [the ret raise]; [|exact Hi].
  destruct (k_kind k); try exact Hi. destruct (o_numq x) as [n|]; [|exact Hi]. destruct (Nat.ltb (List.length bs) n); [exact Hi|]. cbn.
  eapply I_upd; eauto.
Qed.
Lemma inv_op_eq a b : inv I (op_eq ptrue peqb a b). Proof. unfold op_eq. iv. Qed.
Lemma inv_index_of os op : forall i, inv I (index_of ptrue peqb os op i).
Proof. induction os; intros i; simpl; repeat first [apply IHos|apply inv_op_eq|iv_step]. Qed.
Lemma inv_replay qm bm o : inv I (replay ptrue qm bm o).
Proof. unfold replay. repeat first [apply inv_construct|apply inv_store|iv_step]. Qed.
Lemma inv_call_circuit t qs ba : inv I (call_circuit ptrue t qs ba).
Proof. unfold call_circuit. repeat first [apply inv_replay|iv_step]. Qed.
Lemma inv_call_plain t qs ba : inv I (call_plain ptrue t qs ba).
Proof. unfold call_plain. repeat first [apply inv_call_circuit|iv_step]. Qed.
Lemma inv_eval_ops g os : forall i, inv I (eval_ops ptrue i g os).
Proof. induction os; intros i; simpl; repeat first [apply IHos|apply inv_op_eval|iv_step]. Qed.
Lemma inv_eval_circuit c g : inv I (eval_circuit ptrue c g).
Proof. unfold eval_circuit. repeat first [apply inv_eval_ops|iv_step]. Qed.
Lemma inv_unit_of {A} (m : M A) : inv I m -> inv I (unit_of m).
Proof. intros H. unfold unit_of. apply inv_bind; [exact H|]. intros _. apply inv_ret. Qed.

(** The calls made of these changes only. *)
Definition tame (x : call P) : bool :=
  match x with
  | CLock _ _ | CUnlock _ _ | CReset _ _ _ | CVarSet _ _ | CRemove _ _ _ | CGetParam _ _ _
  | CCallPar _ _ _ _ | CResetVars _ _ => false
  | _ => true
  end.
Definition bit_call (x : call P) : bool := match x with CBitSet _ _ _ _ | CBitReset _ _ => true | _ => false end.
Lemma inv_do_call_nobit x : tame x = true -> bit_call x = false -> inv I (do_call ptrue peqb x).
Proof.
  destruct x; intros H H'; try discriminate H; try discriminate H'; cbn [do_call]; try apply inv_unit_of;
    repeat first [apply inv_new_circuit|apply inv_add_qubit|apply inv_add_bit|apply inv_add_qregister|apply inv_add_cregister
      |apply inv_qreg_add|apply inv_creg_add|apply inv_qreg_freeze|apply inv_creg_freeze|apply inv_get_qubit|apply inv_get_bit
      |apply inv_find_qubit|apply inv_find_bit
      |apply inv_construct|apply inv_call_op|apply inv_set_qubits|apply inv_conditional|apply inv_store|apply inv_op_eval
      |apply inv_cls_num_qubits|apply inv_append_op|apply inv_call_plain|apply inv_eval_circuit|progress unfold extend_ops|iv_step].
Qed.
Lemma inv_ctx_enter_views c : inv I (let! _ := @qubits P c in let! _ := bits c in ret tt).
Proof. iv. Qed.
Section BitPut.
Hypothesis I_bitput : forall w b l v v', nth_error (w_bit w) b = Some (l, v) -> I w -> I (set_bit w (set_nth b (l, v') (w_bit w))).
Lemma inv_bit_set b v f : inv I (@bit_set P b v f).
Proof.
  intros w Hi. unfold bit_set. destruct (nth_error (w_bit w) b) as [[l o]|] eqn:E; [|exact Hi].
  destruct (match o with Some _ => negb f | None => false end); [exact Hi|]. cbn. now apply I_bitput with o.
Qed.
Lemma inv_bit_reset b : inv I (@bit_reset P b).
Proof. intros w Hi. unfold bit_reset. destruct (nth_error (w_bit w) b) as [[l o]|] eqn:E; [|exact Hi]. cbn. now apply I_bitput with o. Qed.
Lemma inv_item_reset v : inv I (@item_reset P v).
Proof. destruct v; simpl; try apply inv_raise. apply inv_bit_reset. Qed.
Lemma inv_do_call x : tame x = true -> inv I (do_call ptrue peqb x).
Proof.
  intros H. destruct (bit_call x) eqn:E; [|now apply inv_do_call_nobit].
  destruct x; try discriminate E; cbn [do_call]; [apply inv_bit_set|apply inv_bit_reset].
Qed.
End BitPut.
End Inv.
End Wf.

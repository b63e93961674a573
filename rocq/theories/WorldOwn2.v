(** The operations of a circuit act on its own qubits. *)
From Coq Require Import List ZArith String Bool Arith Lia.
From Verif Require Import Py RegisterModel RegisterSpec RegisterProofs WorldModel WorldSpec WorldSpec3 WorldSpec4 WorldReg WorldInv WorldInv2 WorldInv3 WorldInv4 WorldInv5 WorldInv6 WorldInv7 WorldWf WorldWf2 WorldWf3 WorldProofs2 WorldCtx WorldCtx3 WorldOps WorldBuild WorldReplay WorldTrace WorldTrace2 WorldOwn.
Import ListNotations.
Local Open Scope nat_scope.

(** ** Invariants that need room for the qubits *)
Section KeepAny.
Variable P : Type.
Variable ptrue : P -> bool.
Variable peqb : P -> P -> bool.
Notation world := (world P).
Notation M := (M P).
Variable I : world -> Prop.
Variable ok : world -> call P -> Prop.
Hypothesis k_context : forall c, keeps P I (@context P c).
Hypothesis k_ctx_enter : forall a, keeps P I (@ctx_enter P a).
Hypothesis k_ctx_exit : forall a, keeps P I (@ctx_exit P a).
Hypothesis k_set_frozen : forall b e, keeps P I (@set_frozen P b e).
Hypothesis K_call : forall w x, ok w x -> small P (fst (do_call ptrue peqb x w)) -> I w -> I (fst (do_call ptrue peqb x w)).
Lemma fst_finally r fin : fst (@finally P r fin) = fst (fin (fst r)).
Proof. unfold finally. destruct r as [w o]. cbn. destruct (fin w) as [w' [u|e]]; reflexivity. Qed.
Lemma any_grows p : grows P (run ptrue peqb p).
Proof.
  induction p; simpl.
  - apply grows_ret.
  - apply grows_do_call.
  - apply grows_bind; auto.
  - apply grows_bind; [apply k_context|]. intros a. apply grows_bind; [apply k_ctx_enter|]. intros _ w.
    rewrite fst_finally. eapply mono_trans; [apply IHp|]. apply k_ctx_exit.
  - apply grows_bind; [apply k_set_frozen|]. intros _ w.
    rewrite fst_finally. eapply mono_trans; [apply IHp|]. apply k_set_frozen.
  - intros w. simpl. apply IHp.
  - apply grows_raise.
Qed.

Lemma any_keeps p : forall w, executes P ptrue peqb ok p w -> small P (fst (run ptrue peqb p w)) -> I w ->
  I (fst (run ptrue peqb p w)).
Proof.
  induction p; simpl; intros w He Sw Hi.
  - exact Hi.
  - auto.
  - destruct He as [H1 H2]. unfold mbind in *. pose proof (IHp1 w H1) as K1.
    destruct (run ptrue peqb p1 w) as [w' [u|e]]; simpl in *; [|auto].
    apply IHp2; auto. apply K1; [|auto]. eapply small_mono; [|exact Sw]. apply any_grows.
  - unfold mbind in *. pose proof (k_context c) as [G1 K1]. specialize (G1 w). specialize (K1 w).
    destruct (context c w) as [w1 [a|e]]; simpl in *; [|auto].
    pose proof (k_ctx_enter a) as [G2 K2]. specialize (G2 w1). specialize (K2 w1).
    destruct (ctx_enter a w1) as [w2 [u|e]]; simpl in *.
    + rewrite fst_finally in *. pose proof (k_ctx_exit a) as [G3 K3].
      assert (S3 : small P (fst (run ptrue peqb p w2))) by (eapply small_mono; [apply G3|exact Sw]).
      assert (S2 : small P w2) by (eapply small_mono; [apply any_grows|exact S3]).
      assert (S1 : small P w1) by (eapply small_mono; [exact G2|exact S2]).
      apply K3; [exact Sw|]. apply IHp; auto.
    + apply K2; [auto|]. apply K1; [|auto]. eapply small_mono; [exact G2|exact Sw].
  - unfold mbind in *. pose proof (k_set_frozen true CircuitError) as [G1 K1]. specialize (G1 w). specialize (K1 w).
    destruct (set_frozen true CircuitError w) as [w1 [a|e]]; simpl in *; [|auto].
    rewrite fst_finally in *. pose proof (k_set_frozen false AttributeError) as [G3 K3].
    assert (S3 : small P (fst (run ptrue peqb p w1))) by (eapply small_mono; [apply G3|exact Sw]).
    assert (S1 : small P w1) by (eapply small_mono; [apply any_grows|exact S3]).
    apply K3; [exact Sw|]. apply IHp; auto.
  - auto.
  - exact Hi.
Qed.

Lemma any_visits_grows p : forall w v, visits P ptrue peqb p w v -> mono P w v.
Proof.
  assert (A : forall p w v, v = w \/ v = fst (run ptrue peqb p w) -> mono P w v).
  { intros q w v [->| ->]; [apply mono_refl|apply any_grows]. }
  induction p; intros w v Hv; simpl in Hv.
  - apply (A Skip). tauto.
  - apply (A (Do x)). tauto.
  - destruct Hv as [E|[E|[H|H]]]; [apply (A (Seq p1 p2)); auto|apply (A (Seq p1 p2)); auto|auto|].
    pose proof (any_grows p1 w) as G. destruct (run ptrue peqb p1 w) as [w' [u|e]]; [|easy].
    eapply mono_trans; [exact G|auto].
  - destruct Hv as [E|[E|H]]; [apply (A (With c p)); auto|apply (A (With c p)); auto|].
    assert (G : mono P w (fst ((let! a := context c in ctx_enter a) w))).
    { apply grows_bind; [apply k_context|]. intros a. apply k_ctx_enter. }
    match type of H with (let (_, _) := ?m w in _) => destruct (m w) as [w' [u|e]]; [|easy] end.
    eapply mono_trans; [exact G|auto].
  - destruct Hv as [E|[E|H]]; [apply (A (Frozen p)); auto|apply (A (Frozen p)); auto|].
    pose proof (k_set_frozen true CircuitError) as [G _]. specialize (G w).
    destruct (set_frozen true CircuitError w) as [w' [u|e]]; [|easy].
    eapply mono_trans; [exact G|auto].
  - destruct Hv as [E|[E|H]]; [apply (A (Try p)); auto|apply (A (Try p)); auto|auto].
  - apply (A (Raise e)). tauto.
Qed.

Lemma any_visits p : forall w v, executes P ptrue peqb ok p w -> small P v -> I w ->
  visits P ptrue peqb p w v -> I v.
Proof.
  assert (A : forall p w v, executes P ptrue peqb ok p w -> small P v -> I w ->
                v = w \/ v = fst (run ptrue peqb p w) -> I v).
  { intros q w v He Sv Hi [->| ->]; [exact Hi|now apply any_keeps]. }
  induction p; intros w v He Sv Hi Hv; pose proof (A _ w v He Sv Hi) as A'; simpl in Hv, He.
  - tauto.
  - tauto.
  - destruct Hv as [E|[E|[H|H]]]; [auto|auto|eapply IHp1; [apply He|..]; eauto|].
    destruct He as [H1 H2]. pose proof (any_keeps p1 w H1) as K.
    destruct (run ptrue peqb p1 w) as [w' [u|e]]; [|easy]. simpl in K.
    eapply IHp2; [exact H2|exact Sv| |exact H]. apply K; [|exact Hi]. eapply small_mono; [|exact Sv].
    eapply any_visits_grows; eauto.
  - destruct Hv as [E|[E|H]]; [auto|auto|].
    assert (K : keeps P I (let! a := context c in ctx_enter a)).
    { apply keeps_bind; [apply k_context|]. intros a. apply k_ctx_enter. }
    destruct K as [_ K]. specialize (K w).
    match type of H with (let (_, _) := ?m w in _) => destruct (m w) as [w' [u|e]]; [|easy] end.
    simpl in K. eapply IHp; [exact He|exact Sv| |exact H]. apply K; [|exact Hi]. eapply small_mono; [|exact Sv].
    eapply any_visits_grows; eauto.
  - destruct Hv as [E|[E|H]]; [auto|auto|].
    pose proof (k_set_frozen true CircuitError) as [_ K]. specialize (K w).
    destruct (set_frozen true CircuitError w) as [w' [u|e]]; [|easy].
    simpl in K. eapply IHp; [exact He|exact Sv| |exact H]. apply K; [|exact Hi]. eapply small_mono; [|exact Sv].
    eapply any_visits_grows; eauto.
  - destruct Hv as [E|[E|H]]; [auto|auto|eauto].
  - tauto.
Qed.
End KeepAny.

Section Own2.
Variable P : Type.
Variable ptrue : P -> bool.
Variable peqb : P -> P -> bool.
Notation world := (world P).
Notation M := (M P).
Notation do_call := (do_call ptrue peqb).
Notation inv := (inv P).
Notation effect := (effect P).

Definition OQ (w : world) : Prop := forall c x o y q, nth_error (w_circ w) c = Some x -> In o (c_ops x) ->
  nth_error (w_op w) o = Some y -> In q (oqubits y) -> In q (circuit_qubits x).

(** ** Calls that record nothing *)
Section From.
Variable w0 : world.
Definition FR (w : world) : Prop := forall c x o y, nth_error (w_circ w) c = Some x -> In o (c_ops x) -> nth_error (w_op w) o = Some y ->
  exists x0 y0, nth_error (w_circ w0) c = Some x0 /\ In o (c_ops x0) /\ nth_error (w_op w0) o = Some y0 /\ oqubits y = oqubits y0.
Lemma FR_same (w w' : world) : w_circ w' = w_circ w -> w_op w' = w_op w -> FR w -> FR w'.
Proof. intros H H' F. unfold FR. now rewrite H, H'. Qed.
Lemma FR_put (w : world) c x y : nth_error (w_circ w) c = Some x -> incl (c_ops y) (c_ops x) -> FR w -> FR (set_circ w (set_nth c y (w_circ w))).
Proof.
  intros E H F d z o u Ez Ho Eu. cbn in *. destruct (nth_set_nth_inv (w_circ w) c x y d z E Ez) as [(-> & ->)|(_ & Ez')]; eauto.
Qed.
Lemma FR_quiet (w : world) c x f : quiet_upd f -> nth_error (w_circ w) c = Some x -> FR w -> FR (set_circ w (set_nth c (f x) (w_circ w))).
Proof. intros Hf E. apply FR_put with x; [exact E|]. destruct (Hf x) as [-> _]. apply incl_refl. Qed.
Lemma FR_new (w : world) par : FR w -> FR (set_circ w (w_circ w ++ [mkCirc [] (mkSide [] None) (mkSide [] None) false None par [] false])).
Proof.
  set (y := mkCirc [] _ _ _ _ _ _ _). intros F d z o u Ez Ho Eu. cbn in *.
  destruct (Nat.lt_ge_cases d (List.length (w_circ w))) as [L|L].
  - rewrite nth_error_app1 in Ez by exact L. eauto.
  - rewrite nth_error_app2 in Ez by exact L. destruct (d - List.length (w_circ w)) as [|[|n]]; cbn in Ez; try discriminate.
    injection Ez as <-. destruct Ho.
Qed.
Lemma FR_op (w : world) o y y' : nth_error (w_op w) o = Some y -> oqubits y' = oqubits y -> FR w -> FR (set_op w (set_nth o y' (w_op w))).
Proof.
  intros E H F d z n u Ez Hn Eu. cbn in *. destruct (nth_set_nth_inv (w_op w) o y y' n u E Eu) as [(e & ->)|(_ & Eu')]; [rewrite e in *|eauto].
  destruct (F d z n y Ez Hn E) as (x0 & y0 & A & B & C & D). exists x0, y0. rewrite H. auto.
Qed.
Lemma FR_upd o f : (forall y : opobj P, oqubits (f y) = oqubits y) -> inv FR (@upd_op P o f).
Proof.
  intros H w F. destruct (nth_error (w_op w) o) as [y|] eqn:E.
  - rewrite (upd_op_run P o f w y E). cbn. eapply FR_op; eauto.
  - unfold upd_op, get_op, mbind. rewrite E. exact F.
Qed.
Lemma FR_eval o g : inv FR (@op_eval P ptrue o g).
Proof.
  intros w F. unfold op_eval, get_op, mbind, read, put_op, lift. destruct (nth_error (w_op w) o) as [y|] eqn:E; cbn; [|exact F].
  destruct (snd (eval_loop ptrue w 0 g (o_params y))); cbn; eapply FR_op; eauto.
Qed.
Lemma FR_evals g os : forall i, inv FR (@eval_ops P ptrue i g os).
Proof.
  induction os as [|o os IH]; intros i; cbn [eval_ops]; [apply inv_ret|].
  apply inv_bind. { destruct g; [apply inv_ret|]. destruct (nth_error _ i); [apply inv_ret|apply inv_raise]. }
  intros g'. apply inv_bind; [intros w F; unfold get_op; destruct (nth_error (w_op w) o); exact F|]. intros x.
  apply inv_bind; [intros w F; unfold get_cls; destruct (nth_error (w_cls w) _); exact F|]. intros k.
  apply inv_bind; [|intros _; apply IH]. destruct (has_params (k_kind k)); cbn [when]; [apply FR_eval|apply inv_ret].
Qed.

Lemma FR_call x : building P x = false -> no_append P x -> ~ sets_qubits P x -> inv FR (do_call x).
Proof.
  intros Hb Hn Hr.
  assert (I1 := FR_quiet). assert (I2 := FR_new).
  destruct x; try discriminate Hb; cbn [WorldModel.do_call]; simpl in Hn, Hr; try contradiction; try (exfalso; now apply Hr); try apply inv_unit_of;
    try (first [apply inv_new_circuit|apply inv_new_qubit|apply inv_new_bit|apply inv_new_var|apply inv_add_qubit|apply inv_add_bit|apply inv_add_qregister|apply inv_add_cregister
      |apply inv_qreg_add|apply inv_creg_add|apply inv_qreg_freeze|apply inv_creg_freeze|apply inv_get_qubit|apply inv_get_bit
      |apply inv_find_qubit|apply inv_find_bit|apply inv_qubits|apply inv_bits|apply inv_bit_set|apply inv_bit_reset
      |apply inv_cls_num_qubits]; eauto; intros; eapply FR_same; eauto; reflexivity).
  - apply inv_lock. intros w d0 x E. apply FR_put with x; auto. apply incl_refl.
  - intros w H. unfold unlock. destruct (nth_error (w_circ w) c) as [x|] eqn:E.
    + rewrite (upd_circ_run P c _ w x E). cbn. eapply FR_put; eauto. destruct (c_par x); apply incl_refl.
    + unfold upd_circ. now rewrite (bind_err _ _ _ _ _ _ (get_circ_none P c w E)).
  - intros w H. unfold reset. unfold mbind at 1. destruct (nth_error (w_circ w) c) as [x|] eqn:E.
    2: { unfold upd_circ. now rewrite (bind_err _ _ _ _ _ _ (get_circ_none P c w E)). }
    rewrite (upd_circ_run P c _ w x E).
    match goal with |- FR (fst (?m ?u)) => assert (K : inv FR m); [|apply K] end.
    2: { eapply FR_put; eauto. intros ? []. }
    apply inv_bind.
    + destruct keep.
      * apply inv_bind; [apply inv_bits, I1|]. intros r. apply inv_bind; [apply inv_lift|]. intros l.
        apply inv_iterM. intros v. apply inv_item_reset. intros u b l0 y y' _ Hu. exact Hu.
      * apply inv_upd_circ; [apply I1|]. intros y. auto.
    + intros _ u Hu. unfold unlock. destruct (nth_error (w_circ u) c) as [y|] eqn:Ey.
      * rewrite (upd_circ_run P c _ u y Ey). cbn. eapply FR_put; eauto. destruct (c_par y); apply incl_refl.
      * unfold upd_circ. now rewrite (bind_err _ _ _ _ _ _ (get_circ_none P c u Ey)).
  - apply inv_var_put. intros w v0 s y p _ Hi. exact Hi.
  - apply FR_upd. reflexivity.
  - intros w F. unfold store, get_op, get_cls, put_op, mbind. destruct (nth_error (w_op w) o) as [y|] eqn:E; cbn; [|exact F].
    destruct (nth_error (w_cls w) (o_cls y)) as [k|]; cbn; [|exact F]. destruct (k_kind k); try exact F. destruct (o_numq y); [|exact F].
    match goal with |- context [if ?b then _ else _] => destruct b end; [exact F|]. cbn. eapply FR_op; eauto.
  - apply FR_eval.
  - intros w Hi. unfold remove_op. destruct (nth_error (w_circ w) c) as [x|] eqn:E.
    2: { now rewrite (bind_err _ _ _ _ _ _ (get_circ_none P c w E)). }
    rewrite (bind_ok _ _ _ _ _ _ (get_circ_some P c w x E)). unfold mbind.
    pose proof (inv_index_of P ptrue peqb (fun u => u = w) (c_ops x) o 0 w eq_refl) as K.
    destruct (index_of ptrue peqb (c_ops x) o 0 w) as [u [i|e]]; cbn in K; subst u; [|exact Hi].
    rewrite (upd_circ_run P c _ w x E). cbn. eapply FR_put; eauto. cbn. intros z. apply (sub_del (c_ops x) i).
  - apply inv_get_param.
    + intros w s Hi. exact Hi.
    + intros w d0 x vs E _ Hi. eapply FR_put; eauto. apply incl_refl.
  - unfold eval_circuit. apply inv_bind; [apply inv_get_circ|]. intros x. destruct (negb (c_par x)); [apply inv_raise|apply FR_evals].
  - apply inv_reset_variables. intros w v0 s y _ Hi. exact Hi.
Qed.
Lemma FR_context c : inv FR (@context P c).
Proof.
  intros w Hi. unfold context, mbind, get_circ. destruct (nth_error (w_circ w) c) as [x|] eqn:E; cbn; [|exact Hi].
  destruct (c_ctx x) eqn:Ec; cbn; [exact Hi|]. apply (FR_put (set_ctx w _) c x); auto. apply incl_refl.
Qed.
Lemma FR_enter a : inv FR (@ctx_enter P a).
Proof.
  unfold ctx_enter. apply inv_bind; [apply inv_get_ctx|]. intros cx. apply inv_bind; [apply inv_get_circ|]. intros x.
  destruct (c_locked x); [apply inv_raise|]. apply inv_bind; [apply inv_read|]. intros [b|]; [apply inv_raise|].
  apply inv_bind; [intros w Hi; exact Hi|]. intros _. apply inv_ctx_enter_views, FR_quiet.
Qed.
Lemma FR_exit a : inv FR (@ctx_exit P a).
Proof.
  unfold ctx_exit. apply inv_bind; [apply inv_get_ctx|]. intros cx.
  apply inv_bind. { apply inv_upd_circ; [apply FR_quiet|]. intros x. destruct (c_par x) eqn:E; cbn; rewrite ?E; auto. }
  intros _. apply inv_bind; [intros w Hi; exact Hi|].
  intros _. apply inv_bind; [apply inv_read|]. intros fs. apply inv_bind.
  { apply inv_iterM; intros. apply inv_reset_variables. intros w v0 s y _ Hi. exact Hi. }
  intros _. apply inv_bind; [intros w Hi; exact Hi|].
  intros _. apply inv_lock. intros w c x E Hi. eapply FR_put; eauto. apply incl_refl.
Qed.
Lemma FR_frozen b e : inv FR (@set_frozen P b e).
Proof.
  unfold set_frozen. apply inv_bind; [apply inv_read|]. intros [a|]; [|apply inv_raise].
  intros w Hi. unfold mbind, get_ctx. destruct (nth_error (w_ctx w) a); cbn; exact Hi.
Qed.
End From.
Lemma FR_refl w : FR w w. Proof. intros c x o y E H F. eauto 6. Qed.

Lemma OQ_from (w w' : world) : FR w w' -> (forall d q, Has P d q w -> Has P d q w') -> OQ w -> OQ w'.
Proof.
  intros F H O c x o y q E Ho Ey Hq. destruct (F c x o y E Ho Ey) as (x0 & y0 & E0 & O0 & Y0 & Eq). rewrite Eq in Hq.
  destruct (H c q) as (x' & E' & H'); [exists x0; split; eauto|]. congruence.
Qed.

(** ** Finding a qubit in the view of a circuit *)
Lemma own_in (w : world) c x q : JQ P w -> SV P w -> small P w -> nth_error (w_circ w) c = Some x ->
  (exists r, snd (qubits c w) = Ok r /\ count (core r) q = Ok true) -> In q (circuit_qubits x).
Proof.
  intros Hj Hs S E (r & Er & Hc). destruct (qubits_run P c w x Hj S E) as (r' & E' & R & _ & K & V).
  rewrite E' in Er. cbn in Er. injection Er as <-.
  assert (Hi : contents r' = circuit_qubits x).
  { destruct (s_cache (c_q x)) as [r1|] eqn:Ec; [|auto]. destruct (s_regs (c_q x)) as [|p t] eqn:Es; [|apply K; right; congruence].
    rewrite (V r1 eq_refl). unfold circuit_qubits. rewrite Es. destruct (SV_okS P w c x Hs E) as [O _]. now apply (O r1 Ec). }
  rewrite <- Hi. rewrite (count_spec (core r') (contents r') q) in Hc by apply R. unfold spec_contains in Hc.
  destruct (ask_exn q); [discriminate|]. injection Hc as Hc. now apply inb_In.
Qed.

(** ** Calls that build *)
Lemma OQ_build x (w : world) : building P x = true -> WF P w -> JQ P w -> SV P w -> small P w -> OQ w -> OQ (fst (do_call x w)).
Proof.
  intros Hb W Hj Hs S O. destruct (build_spec P ptrue peqb x w Hb W) as (vl & ex & j & zs & B). cbv zeta in B.
  destruct B as (Wu & _ & A & Eo & Lj & F). set (u := set_exit (set_var w vl) ex) in *.
  intros d x' o y q E Ho Ey Hq. destruct (nth_error (w_circ w) d) as [x0|] eqn:E0.
  2: { apply nth_error_None in E0. change (w_circ w) with (w_circ u) in E0. rewrite <- (ef_len _ _ _ _ A) in E0. apply nth_error_None in E0. congruence. }
  destruct (ef_circ _ _ _ _ A d x0 E0) as (x1 & E1 & vq & vb & R). rewrite E in E1. injection E1 as <-.
  assert (Hx : circuit_qubits x' = circuit_qubits x0) by (rewrite R; reflexivity). rewrite Hx.
  assert (Ho' : In o (c_ops x0 ++ recs P u d (seq (List.length (w_op w)) j))) by (rewrite R in Ho; exact Ho).
  apply in_app_or in Ho'. rewrite Eo in Ey. destruct Ho' as [Ho'|Ho'].
  - pose proof (wf_ops _ _ W d x0 o E0 Ho') as L. rewrite nth_error_app1 in Ey by exact L. eapply O; eauto.
  - unfold recs in Ho'. destruct (recording P u) as [c|] eqn:Er; [|destruct Ho'].
    destruct (Nat.eqb c d) eqn:Ecd; [|destruct Ho']. apply Nat.eqb_eq in Ecd. subst c. apply in_seq in Ho'.
    rewrite nth_error_app2 in Ey by lia.
    assert (Hy : In y (firstn j zs)).
    { rewrite <- (firstn_skipn j zs) in Ey. rewrite nth_error_app1 in Ey by (rewrite firstn_length; lia). eapply nth_error_In; eauto. }
    rewrite Forall_forall in F. destruct (F y Hy) as [Fq _].
    apply (own_in u d x0 q Hj Hs S E0). exact (Fq d Er q Hq).
Qed.

(** ** Appending *)
Definition K14 (w : world) : Prop := JQ P w /\ SV P w /\ WF P w /\ OQ w.
Lemma OQ_append c o (w : world) : WF P w -> JQ P w -> SV P w -> small P w -> OQ w -> OQ (fst (append_op ptrue c o w)).
Proof.
  intros W Hj Hs S O. destruct (nth_error (w_circ w) c) as [x|] eqn:E.
  2: { unfold append_op. now rewrite (bind_err _ _ _ _ _ _ (get_circ_none P c w E)). }
  destruct (nth_error (w_op w) o) as [y|] eqn:Eo.
  2: { unfold append_op. rewrite (bind_ok _ _ _ _ _ _ (get_circ_some P c w x E)). destruct (c_locked x); [exact O|].
       unfold mbind, get_op. rewrite Eo. exact O. }
  destruct (nth_error (w_cls w) (o_cls y)) as [k|] eqn:Ek.
  2: { unfold append_op. rewrite (bind_ok _ _ _ _ _ _ (get_circ_some P c w x E)). destruct (c_locked x); [exact O|].
       unfold mbind, get_op, get_cls. rewrite Eo. cbn. rewrite Ek. exact O. }
  destruct (append_run P ptrue w c x o y k E Eo Ek) as (v & ps & l & -> & _ & B).
  assert (Hl : forall n, In n l -> n = o /\ forall q, In q (oqubits y) -> In q (circuit_qubits x)).
  { intros n Hn. destruct (snd (append_op ptrue c o w)); [|subst l; destruct Hn]. destruct B as (-> & _ & B & _).
    destruct Hn as [<-|[]]. split; [reflexivity|]. intros q Hq. apply (own_in w c x q); auto. }
  intros d z n u q Ez Hn Eu Hq. cbn in *.
  assert (Hu : exists u0, nth_error (w_op w) n = Some u0 /\ oqubits u = oqubits u0).
  { destruct (nth_set_nth_inv (w_op w) o y (with_oparams y ps) n u Eo Eu) as [(e & ->)|(_ & Eu')]; [|eauto].
    exists y. split; [congruence|reflexivity]. }
  destruct Hu as (u0 & Eu0 & Hu). rewrite Hu in Hq.
  match type of Ez with nth_error (set_nth _ ?t _) _ = _ => destruct (nth_set_nth_inv (w_circ w) c x t d z E Ez) as [(e & ->)|(_ & Ez')] end; [|eapply O; eauto].
  change (In q (circuit_qubits x)). cbn in Hn. apply in_app_or in Hn. destruct Hn as [Hn|Hn]; [eapply O; eauto|].
  destruct (Hl n Hn) as [-> H]. apply H. congruence.
Qed.
Lemma k14_append c o : keeps P K14 (append_op ptrue c o).
Proof.
  split; [apply (grows_do_call P ptrue peqb (CAppend P c o))|]. intros w S (Hj & Hs & W & O).
  assert (Sw : small P w) by (eapply small_mono; [apply (grows_do_call P ptrue peqb (CAppend P c o))|exact S]).
  split; [|split; [|split]].
  - apply (JQ_call P ptrue peqb w (CAppend P c o)); cbn; auto.
  - apply (SV_call P ptrue peqb (CAppend P c o)); cbn; auto.
  - apply (WF_call P ptrue peqb (CAppend P c o)); auto.
  - now apply OQ_append.
Qed.
Lemma k14_extend c os : keeps P K14 (extend_ops ptrue c os).
Proof.
  unfold extend_ops. induction os as [|o os IH]; cbn [iterM].
  - split; [apply grows_ret|]. auto.
  - apply keeps_bind; [apply k14_append|]. intros _. exact IH.
Qed.

(** ** Every call *)
Lemma OQ_call x (w : world) : own_ok P w x -> small P (fst (do_call x w)) -> K14 w -> K14 (fst (do_call x w)).
Proof.
  intros (Ho & Hk & Hr) S K. assert (K' := K). destruct K' as (Hj & Hs & W & O).
  assert (Sw : small P w) by (eapply small_mono; [apply (grows_do_call P ptrue peqb)|exact S]).
  split; [now apply JQ_call|]. split; [now apply SV_call|]. split; [now apply WF_call|].
  destruct (building P x) eqn:Hb; [now apply OQ_build|].
  assert (D : no_append P x \/ ~ no_append P x) by (destruct x; simpl; auto). destruct D as [D|D].
  - apply (OQ_from w); auto.
    + apply FR_call; auto. apply FR_refl.
    + intros d q H. apply (Has_call P ptrue peqb d q w x); auto.
  - destruct x; try (exfalso; apply D; exact I); cbn [WorldModel.do_call] in *; [apply k14_append|apply k14_extend]; auto.
Qed.

Lemma k14_from {A} (m : M A) : (forall I : world -> Prop, (forall w w', same P w w' -> I w -> I w') -> (forall c, keeps P I (@qubits P c)) -> (forall c, keeps P I (@bits P c)) -> keeps P I m) ->
  inv (WF P) m -> (forall w, inv (FR w) m) -> keeps P K14 m.
Proof.
  intros G W F. split; [apply (G (JQ P)); [exact (JQ_same P)|apply keepsQ_qubits|apply keepsQ_bits]|].
  intros w S (Hj & Hs & Hw & O). split; [|split; [|split]].
  - apply (G (JQ P)); auto; [exact (JQ_same P)|apply keepsQ_qubits|apply keepsQ_bits].
  - apply (G (SV P)); auto; [exact (SV_same P)|apply keepsS_qubits|apply keepsS_bits].
  - now apply W.
  - apply (OQ_from w); auto; [apply F, FR_refl|]. intros d q H.
    apply (G (JH P d q)); auto; [exact (JH_same P d q)|apply kh_qubits|apply kh_bits|]. split; auto.
Qed.

Theorem OQ_reach v : reaches P ptrue peqb (own_ok P) v -> small P v -> OQ v.
Proof.
  intros (ks & p & He & Hv) S. assert (K : K14 v); [|apply K].
  eapply (any_visits P ptrue peqb K14 (own_ok P)); eauto.
  - intros c. apply k14_from; [intros; now apply k_context|apply WF_context|intros; apply FR_context].
  - intros c. apply k14_from; [intros; now apply k_ctx_enter|apply WF_enter|intros; apply FR_enter].
  - intros c. apply k14_from; [intros; now apply k_ctx_exit|apply WF_exit|intros; apply FR_exit].
  - intros b e. apply k14_from; [intros; now apply k_set_frozen|apply WF_frozen|intros; apply FR_frozen].
  - intros w x. apply OQ_call.
  - split; [constructor|]. split; [split; constructor|]. split; [apply WF_start|]. intros [|c]; discriminate.
Qed.
End Own2.

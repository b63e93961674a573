(** The operations of a circuit are those built while it records. *)
From Coq Require Import List ZArith String Bool Arith Lia Sorted.
From Verif Require Import Py RegisterModel WorldModel WorldSpec WorldSpec3 WorldInv WorldInv2 WorldInv5 WorldWf WorldWf2 WorldWf3 WorldCtx WorldCtx3 WorldOps WorldBuild WorldReplay.
Import ListNotations.
Local Open Scope nat_scope.

Section Trace.
Variable P : Type.
Variable ptrue : P -> bool.
Variable peqb : P -> P -> bool.
Notation world := (world P).
Notation M := (M P).
Notation effect := (effect P).
Notation inv := (inv P).
Notation run := (run ptrue peqb).
Notation do_call := (do_call ptrue peqb).

(** Circuit [d] holds these operations. *)
Definition holds (d : nat) (os : list nat) (w : world) : Prop := exists x, nth_error (w_circ w) d = Some x /\ c_ops x = os.

Lemma holds_put d os (w : world) c x y : nth_error (w_circ w) c = Some x -> (c = d -> c_ops y = c_ops x) -> holds d os w ->
  holds d os (set_circ w (set_nth c y (w_circ w))).
Proof.
  intros E H (z & Ez & Ho). destruct (nth_set_nth (w_circ w) c x y d z E Ez) as [(-> & -> & K)|(n & K)].
  - exists y. split; [exact K|]. rewrite H by reflexivity. exact Ho.
  - exists z. auto.
Qed.
Lemma holds_quiet d os (w : world) c x f : quiet_upd f -> nth_error (w_circ w) c = Some x -> holds d os w -> holds d os (set_circ w (set_nth c (f x) (w_circ w))).
Proof. intros Hf E. apply holds_put with x; [exact E|]. intros _. now destruct (Hf x) as (F & _). Qed.
Lemma holds_new d os (w : world) par : holds d os w -> holds d os (set_circ w (w_circ w ++ [mkCirc [] (mkSide [] None) (mkSide [] None) false None par [] false])).
Proof. intros (x & E & H). exists x. split; [|exact H]. cbn. now apply nth_app_left. Qed.
Lemma holds_same d os (w w' : world) : w_circ w' = w_circ w -> holds d os w -> holds d os w'.
Proof. intros H (x & E & Ho). exists x. now rewrite H. Qed.

Lemma set_vars_run1 vs : forall ps (w : world), exists l r, set_vars vs ps w = (set_var w l, r).
Proof.
  assert (Z : forall w : world, set_var w (w_var w) = w) by (intros []; reflexivity).
  induction vs as [|v vs IH]; intros [|p ps] w; simpl; try (exists (w_var w); eexists; unfold ret, raise; now rewrite Z).
  unfold mbind, var_put. destruct (nth_error (w_var w) v) as [[s o]|]; cbn.
  - destruct (IH ps (set_var w (set_nth v (s, Some p) (w_var w)))) as (l & r & E). rewrite E. exists l, r. reflexivity.
  - exists (w_var w). eexists. now rewrite Z.
Qed.

Lemma Forall2_len {A B} (R : A -> B -> Prop) l m : Forall2 R l m -> List.length m = List.length l.
Proof. induction 1; cbn; congruence. Qed.

(** The calls that build nothing. *)
Definition building (x : call P) : bool :=
  match x with CConstruct _ _ _ | CCallOp _ _ _ | CCall _ _ _ _ | CCallPar _ _ _ _ => true | _ => false end.
Lemma holds_append d os c o : c <> d -> inv (holds d os) (append_op ptrue c o).
Proof.
  intros n w H. destruct (nth_error (w_circ w) c) as [x|] eqn:E.
  2: { unfold append_op. now rewrite (bind_err _ _ _ _ _ _ (get_circ_none P c w E)). }
  destruct (nth_error (w_op w) o) as [y|] eqn:Eo.
  2: { unfold append_op. rewrite (bind_ok _ _ _ _ _ _ (get_circ_some P c w x E)). destruct (c_locked x); [exact H|].
       assert (G : get_op o w = (w, Err Undefined)) by (unfold get_op; now rewrite Eo). now rewrite (bind_err _ _ _ _ _ _ G). }
  destruct (nth_error (w_cls w) (o_cls y)) as [k|] eqn:Ek.
  2: { unfold append_op. rewrite (bind_ok _ _ _ _ _ _ (get_circ_some P c w x E)). destruct (c_locked x); [exact H|].
       assert (G : get_op o w = (w, Ok y)) by (unfold get_op; now rewrite Eo). rewrite (bind_ok _ _ _ _ _ _ G).
       assert (G1 : get_cls (o_cls y) w = (w, Err Undefined)) by (unfold get_cls; now rewrite Ek). now rewrite (bind_err _ _ _ _ _ _ G1). }
  destruct (append_run P ptrue w c x o y k E Eo Ek) as (v & ps & l & -> & _).
  exact (holds_put d os (set_op w _) c x _ E ltac:(contradiction) H).
Qed.
Lemma holds_call d os x : building x = false -> no_edit P d x -> inv (holds d os) (do_call x).
Proof.
  intros Hb Hn.
  assert (I1 := holds_quiet d os). assert (I2 := holds_new d os).
  destruct x; try discriminate Hb; cbn [WorldModel.do_call]; simpl in Hn; try apply inv_unit_of;
    try (first [apply inv_new_circuit|apply inv_new_qubit|apply inv_new_bit|apply inv_new_var|apply inv_add_qubit|apply inv_add_bit|apply inv_add_qregister|apply inv_add_cregister
      |apply inv_qreg_add|apply inv_creg_add|apply inv_qreg_freeze|apply inv_creg_freeze|apply inv_get_qubit|apply inv_get_bit
      |apply inv_find_qubit|apply inv_find_bit|apply inv_qubits|apply inv_bits|apply inv_bit_set|apply inv_bit_reset
      |apply inv_set_qubits|apply inv_conditional|apply inv_store|apply inv_op_eval|apply inv_cls_num_qubits|apply inv_eval_circuit]; eauto; intros; eapply holds_same; eauto; reflexivity).
  - apply inv_lock. intros w d0 x E. apply holds_put with x; auto.
  - intros w H. unfold unlock. destruct (nth_error (w_circ w) c) as [x|] eqn:E.
    + rewrite (upd_circ_run P c _ w x E). cbn. eapply holds_put; eauto. intros _. now destruct (c_par x).
    + unfold upd_circ. now rewrite (bind_err _ _ _ _ _ _ (get_circ_none P c w E)).
  - intros w H. unfold reset. unfold mbind at 1. destruct (nth_error (w_circ w) c) as [x|] eqn:E.
    2: { unfold upd_circ. now rewrite (bind_err _ _ _ _ _ _ (get_circ_none P c w E)). }
    rewrite (upd_circ_run P c _ w x E).
    match goal with |- holds _ _ (fst (?m ?u)) => assert (K : inv (holds d os) m); [|apply K] end.
    2: { eapply holds_put; eauto. contradiction. }
    apply inv_bind.
    + destruct keep.
      * apply inv_bind; [apply inv_bits, I1|]. intros r. apply inv_bind; [apply inv_lift|]. intros l.
        apply inv_iterM. intros v. apply inv_item_reset. intros u b l0 y y' _ Hu. exact Hu.
      * apply inv_upd_circ; [apply I1|]. intros y. auto.
    + intros _ u Hu. unfold unlock. destruct (nth_error (w_circ u) c) as [y|] eqn:Ey.
      * rewrite (upd_circ_run P c _ u y Ey). cbn. eapply holds_put; eauto. contradiction.
      * unfold upd_circ. now rewrite (bind_err _ _ _ _ _ _ (get_circ_none P c u Ey)).
  - apply inv_var_put. intros w v0 s y p _ Hi. exact Hi.
  - now apply holds_append.
  - unfold extend_ops. apply inv_iterM. intros o. now apply holds_append.
  - intros w Hi. unfold remove_op. destruct (nth_error (w_circ w) c) as [x|] eqn:E.
    2: { now rewrite (bind_err _ _ _ _ _ _ (get_circ_none P c w E)). }
    rewrite (bind_ok _ _ _ _ _ _ (get_circ_some P c w x E)). unfold mbind.
    pose proof (inv_index_of P ptrue peqb (fun u => u = w) (c_ops x) o 0 w eq_refl) as K.
    destruct (index_of ptrue peqb (c_ops x) o 0 w) as [u [i|e]]; cbn in K; subst u; [|exact Hi].
    rewrite (upd_circ_run P c _ w x E). cbn. eapply holds_put; eauto. contradiction.
  - apply inv_get_param.
    + intros w s Hi. exact Hi.
    + intros w d0 x vs E _ Hi. eapply holds_put; eauto.
  - apply inv_reset_variables. intros w v0 s y _ Hi. exact Hi.
Qed.

(** The calls that build. *)
Lemma holds_effect d os (w w' : world) l : effect w w' l -> holds d os w -> holds d (os ++ recs P w d l) w'.
Proof.
  intros E (x & Ex & <-). destruct (ef_circ _ _ _ _ E d x Ex) as (x' & Ex' & R). exists x'. split; [exact Ex'|]. apply (recorded_par _ _ _ R).
Qed.
Lemma recs_logs d (w : world) l (Q : list nat -> Prop) : Q l -> (recording P w = Some d -> Q (recs P w d l)) /\ (recording P w <> Some d -> recs P w d l = []).
Proof.
  intros H. unfold recs. destruct (recording P w) as [c|]; [|split; congruence].
  destruct (Nat.eqb c d) eqn:E; [apply Nat.eqb_eq in E; subst c; split; congruence|]. apply Nat.eqb_neq in E. split; congruence.
Qed.
Ltac by_recs B := match goal with |- (recording P ?w = Some ?d -> _) /\ (_ -> recs _ _ _ ?l = []) =>
  match type of B with ?T => let Q := eval pattern l in T in match Q with ?F _ => exact (recs_logs d w l F B) end end end.
Lemma builds_call d os x (w : world) : building x = true -> WF P w -> holds d os w ->
  exists l, holds d (os ++ l) (fst (do_call x w)) /\
    (recording P w = Some d -> constructs P ptrue peqb x w l) /\ (recording P w <> Some d -> l = []).
Proof.
  intros Hb W H. pose proof (WF_sound P w W) as S.
  assert (T : forall t qs ba (u : world), WF P u -> (w_circ u = w_circ w /\ w_op u = w_op w /\ recording P u = recording P w) ->
    exists l, holds d (os ++ recs P w d l) (fst (call_circuit ptrue t qs ba u)) /\
     exists j, l = seq (List.length (w_op w)) j /\ List.length (w_op w) + j <= List.length (w_op (fst (call_circuit ptrue t qs ba u))) <= Datatypes.S (List.length (w_op w) + j) /\
        (snd (call_circuit ptrue t qs ba u) = Ok tt -> List.length (w_op w) + j = List.length (w_op (fst (call_circuit ptrue t qs ba u))) /\
           forall y, nth_error (w_circ w) t = Some y -> j = List.length (c_ops y))).
  { intros t qs ba u Wu (H1 & H2 & H3). destruct (call_circuit_spec P ptrue u t qs ba Wu) as (j & zs & A & B & _ & C). cbv zeta in *.
    exists (seq (List.length (w_op w)) j). split.
    - assert (Hu : holds d os u) by (eapply holds_same; eauto). pose proof (holds_effect d os u _ _ A Hu) as K.
      rewrite H2 in K. unfold recs in *. now rewrite H3 in K.
    - exists j. split; [reflexivity|]. rewrite B, app_length, H2.
      destruct (snd (call_circuit ptrue t qs ba u)) as [[]|e]; [|split; [lia|discriminate]]. destruct C as (x0 & ks & bm & [_ _ C1 _ _] & -> & C2).
      apply Forall2_len in C2. split; [lia|]. intros _. split; [lia|]. intros y Hy. rewrite H1 in C1. congruence. }
  destruct x; try discriminate Hb; cbn [WorldModel.do_call].
  - destruct (construct_spec P ptrue w k ps a S) as (l & A & B). unfold unit_of.
    assert (Q : constructs P ptrue peqb (CConstruct k ps a) w l /\ fst ((construct ptrue k ps a ;; ret tt) w) = fst (construct ptrue k ps a w)).
    { unfold constructs. cbn [WorldModel.do_call]. unfold unit_of, built_ok in *. destruct (construct ptrue k ps a w) as [w1 [n|e]] eqn:E; cbn [fst snd] in *.
      - rewrite (bind_ok _ _ _ _ _ _ E). cbn. destruct B as (-> & -> & _). auto.
      - rewrite (bind_err _ _ _ _ _ _ E). cbn. destruct B as (-> & _). auto. }
    destruct Q as [Q ->]. exists (recs P w d l). split; [now apply holds_effect|]. by_recs Q.
  - destruct (call_op_spec P ptrue w o a S) as (l & A & B). unfold unit_of.
    assert (Q : constructs P ptrue peqb (CCallOp P o a) w l /\ fst ((call_op ptrue o a ;; ret tt) w) = fst (call_op ptrue o a w)).
    { unfold constructs. cbn [WorldModel.do_call]. unfold unit_of in *. destruct (call_op ptrue o a w) as [w1 [n|e]] eqn:E; cbn [fst snd] in *.
      - rewrite (bind_ok _ _ _ _ _ _ E). cbn. destruct B as (-> & -> & _). auto.
      - rewrite (bind_err _ _ _ _ _ _ E). cbn. destruct B as (-> & _). auto. }
    destruct Q as [Q ->]. exists (recs P w d l). split; [now apply holds_effect|]. by_recs Q.
  - unfold constructs. cbn [WorldModel.do_call]. unfold call_plain.
    assert (N : forall e, exists l, holds d (os ++ l) w /\
      (recording P w = Some d -> exists j, l = seq (List.length (w_op w)) j /\ List.length (w_op w) + j <= List.length (w_op w) <= Datatypes.S (List.length (w_op w) + j) /\
        (@Err unit e = Ok tt -> List.length (w_op w) + j = List.length (w_op w) /\ forall y, nth_error (w_circ w) t = Some y -> j = List.length (c_ops y))) /\
      (recording P w <> Some d -> l = [])).
    { intros e. exists []. rewrite app_nil_r. split; [exact H|]. split; [|auto]. intros _. exists 0. split; [reflexivity|]. split; [lia|discriminate]. }
    destruct (nth_error (w_circ w) t) as [y|] eqn:Et.
    2: { rewrite (bind_err _ _ _ _ _ _ (get_circ_none P t w Et)). apply (N Undefined). }
    rewrite (bind_ok _ _ _ _ _ _ (get_circ_some P t w y Et)). destruct (c_par y); [apply (N TypeError)|].
    destruct (T t qs ba w W ltac:(auto)) as (l & A & B). rewrite Et in B. exists (recs P w d l). split; [exact A|]. by_recs B.
  - unfold constructs. cbn [WorldModel.do_call]. unfold call_parametric.
    assert (N : forall (u : world) e, w_circ u = w_circ w -> w_op u = w_op w -> exists l, holds d (os ++ l) u /\
      (recording P w = Some d -> exists j, l = seq (List.length (w_op w)) j /\ List.length (w_op w) + j <= List.length (w_op u) <= Datatypes.S (List.length (w_op w) + j) /\
        (@Err unit e = Ok tt -> List.length (w_op w) + j = List.length (w_op u) /\ forall y, nth_error (w_circ w) t = Some y -> j = List.length (c_ops y))) /\
      (recording P w <> Some d -> l = [])).
    { intros u e H1 H2. exists []. rewrite app_nil_r. split; [eapply holds_same; eauto|]. split; [|auto]. intros _. exists 0. split; [reflexivity|]. rewrite H2. split; [lia|discriminate]. }
    destruct (nth_error (w_circ w) t) as [y|] eqn:Et.
    2: { rewrite (bind_err _ _ _ _ _ _ (get_circ_none P t w Et)). apply (N w Undefined); auto. }
    rewrite (bind_ok _ _ _ _ _ _ (get_circ_some P t w y Et)). destruct (negb (c_par y)); [apply (N w TypeError); auto|]. rewrite (read_bind P).
    assert (K : exists vl r, match w_active w with Some _ => set_vars (c_vars y) ps | None => ret tt end w = (set_var w vl, r) /\ WF P (set_var w vl)).
    { assert (Z : set_var w (w_var w) = w) by now destruct w. destruct (w_active w).
      - destruct (set_vars_run1 (c_vars y) ps w) as (vl & r & E). exists vl, r. split; [exact E|].
        assert (Wv : inv (WF P) (set_vars (c_vars y) ps)) by (apply inv_set_vars; intros v ? ? ? ? _ Hv; now apply WF_set_var). specialize (Wv w W). rewrite E in Wv. exact Wv.
      - exists (w_var w). eexists. rewrite Z. split; [reflexivity|exact W]. }
    destruct K as (vl & r & E & Wv). destruct r as [u|e].
    2: { rewrite (bind_err _ _ _ _ _ _ E). apply (N _ e); reflexivity. }
    rewrite (bind_ok _ _ _ _ _ _ E).
    destruct (T t qs ba (set_exit (set_var w vl) (w_exit w ++ [t]))) as (l & A & B).
    { destruct Wv. constructor; auto. cbn in *. intros t' Ht'. apply in_app_or in Ht'. destruct Ht' as [Ht'|[<-|[]]]; [auto|]. apply nth_error_Some. congruence. }
    { auto. }
    unfold mbind. cbv beta iota. rewrite Et in B. exists (recs P w d l). split; [exact A|]. by_recs B.
Qed.

(** Contexts. *)
Lemma holds_context d os c : inv (holds d os) (@context P c).
Proof.
  intros w Hi. unfold context, mbind, get_circ. destruct (nth_error (w_circ w) c) as [x|] eqn:E; cbn; [|exact Hi].
  destruct (c_ctx x) eqn:Ec; cbn; [exact Hi|]. apply (holds_put d os (set_ctx w _) c x); auto.
Qed.
Lemma holds_enter d os a : inv (holds d os) (@ctx_enter P a).
Proof.
  unfold ctx_enter. apply inv_bind; [apply inv_get_ctx|]. intros cx. apply inv_bind; [apply inv_get_circ|]. intros x.
  destruct (c_locked x); [apply inv_raise|]. apply inv_bind; [apply inv_read|]. intros [b|]; [apply inv_raise|].
  apply inv_bind; [intros w Hi; exact Hi|]. intros _. apply inv_ctx_enter_views. intros w0 c0 x0 f0 F E. now apply holds_quiet.
Qed.
Lemma holds_exit d os a : inv (holds d os) (@ctx_exit P a).
Proof.
  unfold ctx_exit. apply inv_bind; [apply inv_get_ctx|]. intros cx.
  apply inv_bind. { apply inv_upd_circ; [intros w0 c0 x0 f0 F E; now apply holds_quiet|]. intros x. destruct (c_par x) eqn:E; cbn; rewrite ?E; auto. }
  intros _. apply inv_bind; [intros w Hi; exact Hi|].
  intros _. apply inv_bind; [apply inv_read|]. intros fs. apply inv_bind.
  { apply inv_iterM; intros. apply inv_reset_variables. intros w v0 s y _ Hi. exact Hi. }
  intros _. apply inv_bind; [intros w Hi; exact Hi|].
  intros _. apply inv_lock. intros w c x E Hi. eapply holds_put; eauto.
Qed.
Lemma holds_frozen d os b e : inv (holds d os) (@set_frozen P b e).
Proof.
  unfold set_frozen. apply inv_bind; [apply inv_read|]. intros [a|]; [|apply inv_raise].
  intros w Hi. unfold mbind, get_ctx. destruct (nth_error (w_ctx w) a); cbn; exact Hi.
Qed.

(** ** Programs *)
Lemma call_logs d os x (w : world) : WF P w -> no_edit P d x -> holds d os w ->
  exists l, holds d (os ++ l) (fst (do_call x w)) /\
    (recording P w = Some d -> constructs P ptrue peqb x w l) /\ (recording P w <> Some d -> l = []).
Proof.
  intros W N H. destruct (building x) eqn:B; [now apply builds_call|].
  exists []. rewrite app_nil_r. split; [now apply holds_call|]. split; [|auto]. intros _. destruct x; try discriminate B; reflexivity.
Qed.
Lemma logs_run d p : forall os (w : world), WF P w -> executes P ptrue peqb (fun _ => no_edit P d) p w -> holds d os w ->
  exists l, holds d (os ++ l) (fst (run p w)) /\ logs P ptrue peqb d p w l.
Proof.
  assert (Z : forall os (w : world), holds d os w -> exists l, holds d (os ++ l) w /\ l = []).
  { intros os w H. exists []. now rewrite app_nil_r. }
  induction p; intros os w W He H; unfold logs; simpl in He |- *.
  - now apply Z.
  - destruct (call_logs d os x w W He H) as (l & A & B). eauto.
  - destruct He as [H1 H2]. destruct (IHp1 os w W H1 H) as (l & A & B). pose proof (WF_run P ptrue peqb p1 w W) as W1. unfold mbind.
    destruct (run p1 w) as [w' [u|e]]; cbn in *; [|eauto].
    destruct (IHp2 _ w' W1 H2 A) as (m & A' & B'). exists (l ++ m). rewrite app_assoc. split; [exact A'|]. eauto.
  - unfold mbind in *. pose proof (holds_context d os c w H) as H1. pose proof (WF_context P c w W) as W1.
    destruct (context c w) as [w1 [a|e]]; cbn in *; [|now apply Z].
    pose proof (holds_enter d os a w1 H1) as H2. pose proof (WF_enter P a w1 W1) as W2.
    destruct (ctx_enter a w1) as [w2 [u|e]]; cbn in *; [|now apply Z].
    destruct (IHp os w2 W2 He H2) as (l & A & B). exists l. rewrite fst_finally. split; [now apply holds_exit|exact B].
  - unfold mbind in *. pose proof (holds_frozen d os true CircuitError w H) as H1. pose proof (WF_frozen P true CircuitError w W) as W1.
    destruct (set_frozen true CircuitError w) as [w1 [u|e]]; cbn in *; [|now apply Z].
    destruct (IHp os w1 W1 He H1) as (l & A & B). exists l. rewrite fst_finally. split; [now apply holds_frozen|exact B].
  - destruct (IHp os w W He H) as (l & A & B). eauto.
  - now apply Z.
Qed.

(** What is collected is new and in order. *)
Lemma increasing_app l l' m n k : m <= n -> n <= k -> increasing l m n -> increasing l' n k -> increasing (l ++ l') m k.
Proof.
  intros Hm Hn [A B] [C D]. split.
  - induction l as [|x l IH]; cbn; [exact C|]. inversion A; inversion B; subst. constructor; [auto|].
    apply Forall_app. split; [auto|]. eapply Forall_impl; [|exact D]. cbn. intros. lia.
  - apply Forall_app. split; eapply Forall_impl; [|exact B| |exact D]; cbn; intros; lia.
Qed.
Lemma increasing_nil m n : increasing [] m n. Proof. split; constructor. Qed.
Lemma increasing_seq m j n : m + j <= n -> increasing (seq m j) m n.
Proof.
  intros H. split.
  - clear H. revert m. induction j; intros m; cbn; constructor; [auto|]. apply Forall_forall. intros x Hx. apply in_seq in Hx. lia.
  - apply Forall_forall. intros x Hx. apply in_seq in Hx. lia.
Qed.
Lemma increasing_more l m n m' n' : m' <= m -> n <= n' -> increasing l m n -> increasing l m' n'.
Proof. intros A B [C D]. split; [exact C|]. eapply Forall_impl; [|exact D]. cbn. intros. lia. Qed.
Lemma kept_len (w w' : world) : kept P w w' -> List.length (w_op w) <= List.length (w_op w').
Proof.
  intros K. destruct (List.length (w_op w)) as [|n] eqn:E; [lia|].
  destruct (nth_error (w_op w) n) as [z|] eqn:E1; [|apply nth_error_None in E1; lia].
  destruct (g_op _ _ _ K _ _ E1) as (z' & Ez & _).
  assert (nth_error (w_op w') n <> None) as N by congruence. apply nth_error_Some in N. lia.
Qed.
Lemma constructs_new x (w : world) l : WF P w -> constructs P ptrue peqb x w l ->
  increasing l (List.length (w_op w)) (List.length (w_op (fst (do_call x w)))).
Proof.
  intros W H. pose proof (WF_sound P w W) as S. destruct x; cbn [constructs] in H; try (subst l; apply increasing_nil).
  - cbn [WorldModel.do_call] in *. unfold unit_of in *. destruct (construct_spec P ptrue w k ps a S) as (l0 & _ & B). unfold built_ok in B.
    destruct (construct ptrue k ps a w) as [w1 [n|e]] eqn:E; cbn [fst snd] in *.
    + rewrite (bind_ok _ _ _ _ _ _ E) in *. cbn in *. subst l. destruct B as (_ & _ & _ & y & _ & -> & _). rewrite app_length. apply (increasing_seq _ 1). cbn. lia.
    + rewrite (bind_err _ _ _ _ _ _ E) in *. cbn in *. subst l. apply increasing_nil.
  - cbn [WorldModel.do_call] in *. unfold unit_of in *. destruct (call_op_spec P ptrue w o a S) as (l0 & _ & B).
    destruct (call_op ptrue o a w) as [w1 [n|e]] eqn:E; cbn [fst snd] in *.
    + rewrite (bind_ok _ _ _ _ _ _ E) in *. cbn in *. subst l. destruct B as (_ & _ & y & -> & _). rewrite app_length. apply (increasing_seq _ 1). cbn. lia.
    + rewrite (bind_err _ _ _ _ _ _ E) in *. cbn in *. subst l. apply increasing_nil.
  - destruct H as (j & -> & H & _). apply increasing_seq. lia.
  - destruct H as (j & -> & H & _). apply increasing_seq. lia.
Qed.
Lemma run_len p (w : world) : List.length (w_op w) <= List.length (w_op (fst (run p w))).
Proof. apply kept_len, kept_run. Qed.
Lemma collects_new R p : (forall w, R w \/ ~ R w) -> forall (w : world) l, WF P w -> collects P ptrue peqb R p w l ->
  increasing l (List.length (w_op w)) (List.length (w_op (fst (run p w)))).
Proof.
  intros Dec. induction p; intros w l W H; simpl in H.
  - subst l. apply increasing_nil.
  - destruct H as [H H']. destruct (Dec w) as [r|r]; [exact (constructs_new x w l W (H r))|]. rewrite (H' r). apply increasing_nil.
  - pose proof (WF_run P ptrue peqb p1 w W) as W1. pose proof (run_len p1 w) as L1. specialize (IHp1 w).
    simpl. unfold mbind. destruct (run p1 w) as [w' [u|e]]; cbn in *; [|auto].
    destruct H as (m & n & -> & A & B). pose proof (run_len p2 w') as L2. eapply increasing_app; eauto.
  - simpl. unfold mbind in *. pose proof (kept_context P w c w (kept_refl P w)) as K1. pose proof (WF_context P c w W) as W1.
    destruct (context c w) as [w1 [a|e]]; cbn in *; [|subst l; apply increasing_nil].
    pose proof (WF_enter P a w1 W1) as W2. pose proof (kept_enter P w a w1 K1) as K2.
    destruct (ctx_enter a w1) as [w2 [u|e]]; cbn in *; [|subst l; apply increasing_nil].
    rewrite fst_finally in *. pose proof (kept_exit P (fst (run p w2)) a (fst (run p w2)) (kept_refl P _)) as K3.
    eapply increasing_more; [| |apply IHp; eauto]; apply kept_len; assumption.
  - simpl. unfold mbind in *. pose proof (kept_frozen P w true CircuitError w (kept_refl P w)) as K1. pose proof (WF_frozen P true CircuitError w W) as W1.
    destruct (set_frozen true CircuitError w) as [w1 [u|e]]; cbn in *; [|subst l; apply increasing_nil].
    rewrite fst_finally in *. pose proof (kept_frozen P (fst (run p w1)) false AttributeError (fst (run p w1)) (kept_refl P _)) as K3.
    eapply increasing_more; [| |apply IHp; eauto]; apply kept_len; assumption.
  - simpl in *. auto.
  - subst l. apply increasing_nil.
Qed.
End Trace.

(** Consequences: balanced contexts, locked circuits, variables after a context, removal, bit values. *)
From Coq Require Import List ZArith String Bool Arith Lia.
From Verif Require Import Py RegisterModel WorldModel WorldSpec WorldSpec2 WorldInv WorldInv2 WorldInv3 WorldInv5 WorldInv6 WorldInv7 WorldWf WorldWf2 WorldWf3 WorldCtx.
Import ListNotations.
Local Open Scope nat_scope.

Section Ctx2.
Variable P : Type.
Variable ptrue : P -> bool.
Variable peqb : P -> P -> bool.
Notation world := (world P).
Notation M := (M P).
Notation inv := (inv P).
Notation WF := (WF P).
Notation run := (run ptrue peqb).

(** ** A program leaves the active context as it found it *)
Section Balanced.
Variable I : world -> Prop.
Variable ok : world -> call P -> Prop.
Hypothesis I_same : forall w w', same P w w' -> I w -> I w'.
Hypothesis K_qubits : forall c, keeps P I (@qubits P c).
Hypothesis K_bits : forall c, keeps P I (@bits P c).
Hypothesis K_call : forall w x, ok w x -> small P (fst (do_call ptrue peqb x w)) -> I w -> I (fst (do_call ptrue peqb x w)).
Hypothesis I_views : forall w, I w -> JQ P w /\ JB P w.

Lemma run_up p (w : world) : mono P w (fst (run p w)).
Proof. apply (run_grows P ptrue peqb I I_same K_qubits K_bits (grows_do_call P ptrue peqb)). Qed.

Lemma balanced p : forall w, executes P ptrue peqb ok p w -> small P (fst (run p w)) -> I w -> WF w ->
  w_active (fst (run p w)) = w_active w.
Proof.
  induction p; intros w He S Hi W; destruct (w_active w) as [a0|] eqn:Ha;
    try (match goal with |- w_active (fst (run ?q w)) = Some a0 => exact (active_run P ptrue peqb q w a0 W Ha) end).
  - exact Ha.
  - cbn. now rewrite call_active.
  - cbn in *. destruct He as [H1 H2]. unfold mbind in *. pose proof (IHp1 w H1) as K1.
    pose proof (run_keeps P ptrue peqb I I_same K_qubits K_bits ok (grows_do_call P ptrue peqb) K_call p1 w H1) as K2.
    pose proof (WF_run P ptrue peqb p1 w W) as W1.
    destruct (run p1 w) as [w' [u|e]]; cbn in *; [|rewrite K1; auto].
    assert (S1 : small P w') by (eapply small_mono; [apply run_up|exact S]).
    rewrite IHp2; auto. rewrite K1; auto.
  - destruct (nth_error (w_circ w) c) as [x|] eqn:E.
    2: { rewrite with_unfold. unfold context. rewrite (bind_err _ _ _ _ _ _ (get_circ_none P c w E)). exact Ha. }
    assert (Sw : small P w).
    { eapply small_mono; [apply run_up|exact S]. }
    destruct (c_locked x) eqn:L.
    + rewrite with_unfold. destruct (context_run P w c x W E) as (a & f & H1 & H2 & H3 & H4).
      assert (A1 : w_active (fst (context c w)) = None) by (destruct H4 as [[_ ->]|[_ ->]]; exact Ha).
      destruct (context c w) as [w1 r]; cbn in *. subst r.
      assert (K : ctx_enter a w1 = (w1, Err CircuitError)).
      { unfold ctx_enter, mbind at 1, get_ctx. rewrite H1. cbn [the ret raise fst].
        rewrite (bind_ok _ _ _ _ _ _ (get_circ_some P c w1 _ H3)). cbn [c_locked with_ctx]. now rewrite L. }
      rewrite K. exact A1.
    + destruct (I_views w Hi) as [Q B]. destruct (enter_free P w c x W Q B Sw E L Ha) as [w1 E1].
      destruct (with_run P ptrue peqb w w1 c p W E1) as (l & y & Ey & Hr). cbv zeta in Hr. destruct Hr as [-> _]. reflexivity.
  - cbn. unfold mbind, set_frozen, mbind, read. rewrite Ha. exact Ha.
  - cbn in *. rewrite IHp; auto.
  - exact Ha.
Qed.
End Balanced.

Lemma balanced_classical p ks : executes P ptrue peqb (classical_ok P ptrue peqb) p (start P ks) ->
  small P (fst (run p (start P ks))) -> w_active (fst (run p (start P ks))) = None.
Proof.
  intros He S. change None with (w_active (start P ks)).
  apply (balanced (fun w => JQ P w /\ IB P w) (classical_ok P ptrue peqb)); auto using WF_start.
  - intros w w' Hs [Hq Hb]. split; [eapply JQ_same; eauto|eapply IB_same; eauto].
  - intros c. apply keeps_and; [apply keepsQ_qubits|apply keepsB_qubits].
  - intros c. apply keeps_and; [apply keepsQ_bits|apply keepsB_bits].
  - intros w x Ho Sw [Hq Hb]. split; [apply JQ_call; auto; apply Ho|apply IB_call; auto].
  - intros w [Hq Hb]. split; [exact Hq|apply Hb].
  - split; [apply JQ_start|apply IB_start].
Qed.
Lemma balanced_quiet p ks : executes P ptrue peqb (quiet_ok P) p (start P ks) ->
  small P (fst (run p (start P ks))) -> w_active (fst (run p (start P ks))) = None.
Proof.
  intros He S. change None with (w_active (start P ks)).
  apply (balanced (fun w => JQ P w /\ (IB P w /\ UB P w)) (quiet_ok P)); auto using WF_start.
  - intros w w' Hs (Hq & Hb & Hu). split; [eapply JQ_same; eauto|split; [eapply IB_same; eauto|eapply UB_same; eauto]].
  - intros c. apply keeps_and; [apply keepsQ_qubits|apply keeps_and; [apply keepsB_qubits|apply keepsU_qubits]].
  - intros c. apply keeps_and; [apply keepsQ_bits|apply keeps_and; [apply keepsB_bits|apply keepsU_bits]].
  - intros w x Ho Sw (Hq & Hb). split; [apply JQ_call; auto; apply Ho|apply quiet_call; auto].
  - intros w (Hq & Hb & _). split; [exact Hq|apply Hb].
  - split; [apply JQ_start|split; [apply IB_start|constructor]].
Qed.

(** ** Locked circuits *)
Definition locked_ops (c : nat) (os : list nat) (w : world) : Prop :=
  exists x, nth_error (w_circ w) c = Some x /\ c_locked x = true /\ c_ops x = os.

Lemma locked_put c os (w : world) d x y : locked_ops c os w -> nth_error (w_circ w) d = Some x ->
  (d = c -> c_locked y = c_locked x /\ c_ops y = c_ops x) -> locked_ops c os (set_circ w (set_nth d y (w_circ w))).
Proof.
  intros (z & Ez & Lz & Oz) E H. destruct (nth_set_nth (w_circ w) d x y c z E Ez) as [(-> & -> & K)|(n & K)].
  - exists y. cbn. destruct (H eq_refl). split; [exact K|]. split; congruence.
  - exists z. auto.
Qed.
Lemma locked_misc c os (w w' : world) : w_circ w' = w_circ w -> locked_ops c os w -> locked_ops c os w'.
Proof. intros E (x & H). exists x. now rewrite E. Qed.

Notation spares := (WorldSpec2.spares P).

Lemma locked_quiet c os (w : world) d x f : quiet_upd f -> nth_error (w_circ w) d = Some x -> locked_ops c os w ->
  locked_ops c os (set_circ w (set_nth d (f x) (w_circ w))).
Proof. intros Hf E Hi. destruct (Hf x) as (F1 & F2 & F3 & F4 & F5). eapply locked_put; eauto. Qed.
Lemma locked_append c os (w : world) d x o y : nth_error (w_circ w) d = Some x -> c_locked x = false -> nth_error (w_op w) o = Some y ->
  locked_ops c os w -> locked_ops c os (set_circ w (set_nth d (with_ops x (c_ops x ++ [o])) (w_circ w))).
Proof.
  intros E L _ Hi. eapply locked_put; eauto. intros ->. destruct Hi as (z & Ez & Lz & _). congruence.
Qed.
Lemma locked_call c os x (w : world) : spares c x -> locked_ops c os w -> locked_ops c os (fst (do_call ptrue peqb x w)).
Proof.
  intros Hs. destruct (tame P x) eqn:T.
  - revert w. apply (inv_do_call P ptrue peqb); auto using locked_quiet.
    + intros w par (z & Ez & Hz). exists z. cbn. split; [now apply nth_app_left|exact Hz].
    + intros. eapply locked_append; eauto.
  - destruct x; try discriminate T; cbn [do_call]; simpl in Hs; revert w.
    + apply inv_lock. intros w d x E (z & Ez & Lz & Oz). destruct (nth_set_nth (w_circ w) d x (with_locked x true) c z E Ez) as [(-> & -> & K)|(n & K)].
      * eexists. split; [exact K|]. auto.
      * exists z. auto.
    + intros w. unfold unlock. destruct (nth_error (w_circ w) c0) as [x|] eqn:E.
      * rewrite (upd_circ_run P c0 _ w x E). cbn. intros Hi. eapply locked_put; eauto. contradiction.
      * unfold upd_circ. now rewrite (bind_err _ _ _ _ _ _ (get_circ_none P c0 w E)).
    + intros w Hi. unfold reset. unfold mbind at 1.
      destruct (nth_error (w_circ w) c0) as [x|] eqn:E.
      2: { unfold upd_circ. now rewrite (bind_err _ _ _ _ _ _ (get_circ_none P c0 w E)). }
      rewrite (upd_circ_run P c0 _ w x E). 
      match goal with |- locked_ops _ _ (fst (?m ?u)) => assert (K : inv (locked_ops c os) m); [|apply K] end.
      2: { eapply locked_put; eauto. contradiction. }
      apply inv_bind.
      * destruct keep.
        -- apply inv_bind; [apply inv_bits, locked_quiet|]. intros r. apply inv_bind; [apply inv_lift|]. intros l.
           apply inv_iterM. intros v. apply inv_item_reset. intros u b l0 y y' _ Hu. exact Hu.
        -- apply inv_upd_circ; [apply locked_quiet|]. intros y. auto.
      * intros _ u Hu. unfold unlock. destruct (nth_error (w_circ u) c0) as [y|] eqn:Ey.
        -- rewrite (upd_circ_run P c0 _ u y Ey). cbn. eapply locked_put; eauto. contradiction.
        -- unfold upd_circ. now rewrite (bind_err _ _ _ _ _ _ (get_circ_none P c0 u Ey)).
    + apply inv_var_put. intros w v0 s y p _ Hi. exact Hi.
    + intros w Hi. unfold remove_op. destruct (nth_error (w_circ w) c0) as [x|] eqn:E.
      2: { now rewrite (bind_err _ _ _ _ _ _ (get_circ_none P c0 w E)). }
      rewrite (bind_ok _ _ _ _ _ _ (get_circ_some P c0 w x E)). unfold mbind.
      pose proof (inv_index_of P ptrue peqb (fun u => u = w) (c_ops x) o 0 w eq_refl) as K.
      destruct (index_of ptrue peqb (c_ops x) o 0 w) as [u [i|e]]; cbn in K; subst u; [|exact Hi].
      rewrite (upd_circ_run P c0 _ w x E). cbn. eapply locked_put; eauto. contradiction.
    + apply inv_unit_of, inv_get_param.
      * intros w s Hi. exact Hi.
      * intros w d x vs E _ Hi. eapply locked_put; eauto.
    + apply inv_call_parametric; auto using locked_quiet.
      intros. eapply locked_append; eauto.
    + apply inv_reset_variables. intros w v0 s y _ Hi. exact Hi.
Qed.
Lemma locked_context c os d : inv (locked_ops c os) (@context P d).
Proof.
  intros w Hi. unfold context, mbind, get_circ. destruct (nth_error (w_circ w) d) as [x|] eqn:E; cbn; [|exact Hi].
  destruct (c_ctx x) eqn:Ec; cbn; [exact Hi|]. apply (locked_put c os (set_ctx w _) d x); auto.
Qed.
Lemma locked_enter c os a : inv (locked_ops c os) (@ctx_enter P a).
Proof.
  unfold ctx_enter. apply inv_bind; [apply inv_get_ctx|]. intros cx. apply inv_bind; [apply inv_get_circ|]. intros x.
  destruct (c_locked x); [apply inv_raise|]. apply inv_bind; [apply inv_read|]. intros [b|]; [apply inv_raise|].
  apply inv_bind; [intros w Hi; exact Hi|]. intros _. apply inv_ctx_enter_views, locked_quiet.
Qed.
Lemma locked_exit c os a : inv (locked_ops c os) (@ctx_exit P a).
Proof.
  unfold ctx_exit. apply inv_bind; [apply inv_get_ctx|]. intros cx.
  apply inv_bind. { apply inv_upd_circ; [apply locked_quiet|]. intros x. destruct (c_par x) eqn:E; cbn; rewrite ?E; auto. }
  intros _. apply inv_bind; [intros w Hi; exact Hi|].
  intros _. apply inv_bind; [apply inv_read|]. intros fs. apply inv_bind.
  { apply inv_iterM; intros. apply inv_reset_variables. intros w v0 s y _ Hi. exact Hi. }
  intros _. apply inv_bind; [intros w Hi; exact Hi|].
  intros _. apply inv_lock. intros w d x E (z & Ez & Lz & Oz).
  destruct (nth_set_nth (w_circ w) d x (with_locked x true) c z E Ez) as [(-> & -> & K)|(n & K)].
  - eexists. split; [exact K|]. auto.
  - exists z. auto.
Qed.
Lemma locked_frozen c os b e : inv (locked_ops c os) (@set_frozen P b e).
Proof.
  unfold set_frozen. apply inv_bind; [apply inv_read|]. intros [a|]; [|apply inv_raise].
  intros w Hi. unfold mbind, get_ctx. destruct (nth_error (w_ctx w) a); cbn; exact Hi.
Qed.
Lemma locked_visits c os p w v : executes P ptrue peqb (fun _ => spares c) p w -> locked_ops c os w -> visits P ptrue peqb p w v ->
  locked_ops c os v.
Proof.
  intros He Hi Hv. eapply (visits_inv P ptrue peqb (locked_ops c os) (fun _ => spares c));
    eauto using locked_call, locked_context, locked_enter, locked_exit, locked_frozen.
Qed.

Lemma append_locked c o (w : world) x : nth_error (w_circ w) c = Some x -> c_locked x = true ->
  append_op ptrue c o w = (w, Err CircuitError).
Proof.
  intros E L. unfold append_op. rewrite (bind_ok _ _ _ _ _ _ (get_circ_some P c w x E)). now rewrite L.
Qed.
Lemma extend_locked c o os (w : world) x : nth_error (w_circ w) c = Some x -> c_locked x = true ->
  extend_ops ptrue c (o :: os) w = (w, Err CircuitError).
Proof. intros E L. unfold extend_ops. simpl. now rewrite (bind_err _ _ _ _ _ _ (append_locked c o w x E L)). Qed.
Lemma with_locked_circ c body (w : world) x : WF w -> nth_error (w_circ w) c = Some x -> c_locked x = true ->
  run (With c body) w = (fst (context c w), Err CircuitError).
Proof.
  intros W E L. rewrite with_unfold. destruct (context_run P w c x W E) as (a & f & H1 & H2 & H3 & H4).
  destruct (context c w) as [w1 r]; cbn in *. subst r.
  unfold ctx_enter, mbind at 1, get_ctx. rewrite H1. cbn [the ret raise fst].
  rewrite (bind_ok _ _ _ _ _ _ (get_circ_some P c w1 _ H3)). cbn [c_locked with_ctx]. now rewrite L.
Qed.

(** ** Variables *)
Definition VI (w : world) : Prop := forall v s p, nth_error (w_var w) v = Some (s, Some p) ->
  w_active w <> None /\ exists t x, In t (w_exit w) /\ nth_error (w_circ w) t = Some x /\ In v (c_vars x).

Notation enough := (WorldSpec2.enough P).

Lemma set_vars_run vs : forall ps (w : world), Forall (fun v => v < List.length (w_var w)) vs -> List.length vs <= List.length ps ->
  exists l, set_vars vs ps w = (set_var w l, Ok tt) /\ List.length l = List.length (w_var w) /\
    (forall v, ~ In v vs -> nth_error l v = nth_error (w_var w) v) /\
    (NoDup vs -> forall i v p, nth_error vs i = Some v -> nth_error ps i = Some p -> exists s, nth_error l v = Some (s, Some p)).
Proof.
  induction vs as [|v vs IH]; intros ps w F L.
  - exists (w_var w). simpl. split; [now destruct w|]. split; [auto|]. split; [auto|]. intros _ [|i]; discriminate.
  - destruct ps as [|p ps]; simpl in L; [lia|]. inversion F as [|? ? Hv F']; subst. simpl. unfold mbind, var_put at 1.
    destruct (nth_error (w_var w) v) as [[s x]|] eqn:E; [|apply nth_error_None in E; lia].
    destruct (IH ps (set_var w (set_nth v (s, Some p) (w_var w)))) as (l & El & Hl & H1 & H2).
    { cbn. now rewrite set_nth_length. } { lia. }
    cbn in *. rewrite El. exists l. split; [reflexivity|]. split; [now rewrite Hl, set_nth_length|]. split.
    + intros u Hu. rewrite H1 by tauto. apply set_nth_other. tauto.
    + intros N i u q Hi Hq. inversion N as [|? ? N1 N2]; subst. destruct i as [|i]; simpl in Hi, Hq; [|eauto].
      injection Hi as <-. injection Hq as <-. exists s. rewrite H1 by auto. eapply set_nth_same; eauto.
Qed.

Lemma VI_put (w : world) c x y : nth_error (w_circ w) c = Some x -> (exists m, c_vars y = c_vars x ++ m) -> VI w ->
  VI (set_circ w (set_nth c y (w_circ w))).
Proof.
  intros E [m Hm] V v s p Hv. destruct (V v s p Hv) as (A & t & z & Ht & Ez & Iz). split; [exact A|].
  destruct (nth_set_nth (w_circ w) c x y t z E Ez) as [(-> & -> & K)|(n & K)].
  - exists t, y. cbn. split; [auto|]. split; [auto|]. rewrite Hm. apply in_or_app. auto.
  - exists t, z. auto.
Qed.
Lemma VI_same (w : world) c x y : nth_error (w_circ w) c = Some x -> c_vars y = c_vars x -> VI w ->
  VI (set_circ w (set_nth c y (w_circ w))).
Proof. intros E H. apply (VI_put w c x); auto. exists []. now rewrite app_nil_r. Qed.
Lemma VI_quiet (w : world) c x f : quiet_upd f -> nth_error (w_circ w) c = Some x -> VI w ->
  VI (set_circ w (set_nth c (f x) (w_circ w))).
Proof. intros Hf E. apply (VI_same w c x); auto. apply Hf. Qed.
Lemma VI_more_var (w : world) s : VI w -> VI (set_var w (w_var w ++ [(s, None)])).
Proof.
  intros V v t p Hv. apply (V v t p). cbn in Hv. destruct (Nat.lt_ge_cases v (List.length (w_var w))) as [L|L].
  - now rewrite nth_error_app1 in Hv.
  - rewrite nth_error_app2 in Hv by auto. destruct (v - List.length (w_var w)) as [|k]; simpl in Hv; [discriminate|destruct k; discriminate].
Qed.
Lemma VI_fewer (w : world) l : fewer P (w_var w) l -> VI w -> VI (set_var w l).
Proof.
  intros [L H] V v s p Hv. apply (V v s p). cbn in Hv.
  destruct (nth_error (w_var w) v) as [[t x]|] eqn:E.
  - destruct (H v t x E); congruence.
  - apply nth_error_None in E. assert (nth_error l v = None) by (apply nth_error_None; lia). congruence.
Qed.
Lemma VI_unset (w : world) v s x : nth_error (w_var w) v = Some (s, x) -> VI w -> VI (set_var w (set_nth v (s, None) (w_var w))).
Proof.
  intros E. apply VI_fewer. split; [apply set_nth_length|]. intros u t y Hu.
  destruct (nth_set_nth _ v _ (s, None) u _ E Hu) as [(-> & [= -> ->] & K)|(n & K)]; auto.
Qed.
Lemma VI_append (w : world) c x o y : nth_error (w_circ w) c = Some x -> c_locked x = false -> nth_error (w_op w) o = Some y ->
  VI w -> VI (set_circ w (set_nth c (with_ops x (c_ops x ++ [o])) (w_circ w))).
Proof. intros E _ _. now apply (VI_same w c x). Qed.

Lemma VI_call x (w : world) : enough w x -> WF w -> VI w -> VI (fst (do_call ptrue peqb x w)).
Proof.
  intros Hs W. destruct (tame P x) eqn:T.
  - revert w Hs W. intros w _ _. revert w. apply (inv_do_call P ptrue peqb); auto using VI_quiet, VI_more_var.
    + intros w par V v s p Hv. destruct (V v s p Hv) as (A & t & z & Ht & Ez & Iz). split; [exact A|].
      exists t, z. split; [auto|]. split; [now apply nth_app_left|auto].
    + intros. eapply VI_append; eauto.
  - destruct x; try discriminate T; cbn [do_call]; simpl in Hs.
    + revert w Hs W. intros w _ _. revert w. apply inv_lock. intros w d x E. now apply (VI_same w d x).
    + revert w Hs W. intros w _ _. revert w. apply inv_unlock; [apply VI_quiet|]. intros w d x E. now apply (VI_same w d x).
    + revert w Hs W. intros w _ _. revert w. apply inv_reset; auto using VI_quiet.
      * intros w d x E. now apply (VI_same w d x).
      * intros w d x E. now apply (VI_same w d x).
    + contradiction.
    + revert w Hs W. intros w _ _. revert w. apply inv_remove. intros w d x i E. now apply (VI_same w d x).
    + revert w Hs W. intros w _ _. revert w. apply inv_unit_of, inv_get_param; [exact VI_more_var|].
      intros w d x vs E _. apply (VI_put w d x); auto. exists vs. reflexivity.
    + intros V. unfold call_parametric. destruct (nth_error (w_circ w) t) as [x|] eqn:E.
      2: { now rewrite (bind_err _ _ _ _ _ _ (get_circ_none P t w E)). }
      rewrite (bind_ok _ _ _ _ _ _ (get_circ_some P t w x E)). destruct (negb (c_par x)); [exact V|].
      unfold read. unfold mbind at 1. cbv beta iota.
      assert (K : forall u : world, VI (set_exit u (w_exit u ++ [t])) ->
        VI (fst (((fun w0 => (set_exit w0 (w_exit w0 ++ [t]), Ok tt)) ;; call_circuit ptrue t qs ba) u))).
      { intros u Hu. unfold mbind. cbv beta iota. apply (inv_call_circuit P ptrue VI); auto using VI_quiet.
        intros. eapply VI_append; eauto. }
      unfold mbind at 1. destruct (w_active w) as [a|] eqn:Ha; cbv beta iota.
      2: { apply K. intros v s p Hv. destruct (V v s p Hv) as [A _]. contradiction. }
      destruct (set_vars_run (c_vars x) ps w) as (l & El & L & H1 & H2).
      { apply Forall_forall. intros v Hv. eapply wf_vars; eauto. } { now apply Hs. }
      rewrite El. apply K. intros v s p Hv. cbn in Hv |- *. split; [congruence|].
      destruct (in_dec Nat.eq_dec v (c_vars x)) as [i|n].
      * exists t, x. split; [apply in_or_app; simpl; auto|]. auto.
      * rewrite H1 in Hv by auto. destruct (V v s p Hv) as (_ & u & z & Hu & Hz). exists u, z. split; [apply in_or_app; auto|auto].
    + revert w Hs W. intros w _ _. revert w. apply inv_reset_variables. exact VI_unset.
Qed.
Lemma VI_context d : inv VI (@context P d).
Proof.
  intros w Hi. unfold context, mbind, get_circ. destruct (nth_error (w_circ w) d) as [x|] eqn:E; cbn; [|exact Hi].
  destruct (c_ctx x) eqn:Ec; cbn; [exact Hi|]. apply (VI_same (set_ctx w _) d x); auto.
Qed.
Lemma VI_enter a : inv VI (@ctx_enter P a).
Proof.
  unfold ctx_enter. apply inv_bind; [apply inv_get_ctx|]. intros cx. apply inv_bind; [apply inv_get_circ|]. intros x.
  destruct (c_locked x); [apply inv_raise|]. apply inv_bind; [apply inv_read|]. intros [b|]; [apply inv_raise|].
  apply inv_bind.
  - intros w V v s p Hv. destruct (V v s p Hv) as (_ & H). split; [cbn; discriminate|exact H].
  - intros _. apply inv_ctx_enter_views, VI_quiet.
Qed.
Lemma VI_exit a (w : world) : WF w -> VI w -> VI (fst (ctx_exit a w)).
Proof.
  intros W V. destruct (nth_error (w_ctx w) a) as [[c b]|] eqn:Ea.
  2: { unfold ctx_exit, mbind at 1, get_ctx. rewrite Ea. exact V. }
  destruct (nth_error (w_circ w) c) as [x|] eqn:Ex.
  2: { apply nth_error_None in Ex. pose proof (wf_ctx _ _ W a _ Ea). cbn in *. lia. }
  destruct (exit_run P w a c b x W Ea Ex) as (l & -> & F & H1 & H2). cbn. intros v s p Hv. cbn in Hv. exfalso.
  destruct (nth_error (w_var w) v) as [[t y]|] eqn:E.
  2: { destruct F as [L _]. apply nth_error_None in E. assert (nth_error l v = None) by (apply nth_error_None; lia). congruence. }
  destruct F as [L F]. destruct (F v t y E) as [K|K]; [|congruence]. rewrite K in Hv. injection Hv as -> ->.
  destruct (V v s p E) as (_ & u & z & Hu & Ez & Iz). destruct (H1 u z v Hu Ez Iz) as [s' K']. congruence.
Qed.
Lemma VI_frozen b e : inv VI (@set_frozen P b e).
Proof.
  unfold set_frozen. apply inv_bind; [apply inv_read|]. intros [a|]; [|apply inv_raise].
  intros w Hi. unfold mbind, get_ctx. destruct (nth_error (w_ctx w) a); cbn; exact Hi.
Qed.
Lemma VI_reach v : reaches P ptrue peqb enough v -> VI v.
Proof.
  intros (ks & p & He & Hv). 
  assert (G : VI v /\ WF v); [|apply G].
  eapply (visits_inv P ptrue peqb (fun w => VI w /\ WF w) enough); [..|exact Hv]; auto.
  - intros w x Ho [V W]. split; [now apply VI_call|now apply WF_call].
  - intros c w [V W]. split; [now apply VI_context|now apply WF_context].
  - intros c w [V W]. split; [now apply VI_enter|now apply WF_enter].
  - intros c w [V W]. split; [now apply VI_exit|now apply WF_exit].
  - intros b e w [V W]. split; [now apply VI_frozen|now apply WF_frozen].
  - split; [|apply WF_start]. intros u s q Hu. destruct u; discriminate.
Qed.

(** Leaving the context unsets the variables of every circuit called in it, whatever else happened. *)
Lemma with_unsets (w w1 : world) c body t x v : WF w -> enter P c w = (w1, Ok tt) ->
  In t (w_exit (fst (run body w1))) -> nth_error (w_circ (fst (run body w1))) t = Some x -> In v (c_vars x) ->
  exists s, nth_error (w_var (fst (run (With c body) w))) v = Some (s, None).
Proof.
  intros W E Ht Ex Hv. destruct (with_run P ptrue peqb w w1 c body W E) as (l & y & Ey & Hr). cbv zeta in Hr.
  destruct Hr as (-> & _ & H & _). cbn. eauto.
Qed.
End Ctx2.

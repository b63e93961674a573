(** Building operations in the context of a locked circuit; removal of operations; values of bits. *)
From Coq Require Import List ZArith String Bool Arith Lia.
From Verif Require Import Py RegisterModel RegisterProofs WorldModel WorldSpec WorldSpec2 WorldInv WorldInv2 WorldInv5 WorldInv6 WorldWf WorldWf2 WorldWf3 WorldCtx WorldCtx2.
Import ListNotations.
Local Open Scope nat_scope.

Section Ctx3.
Variable P : Type.
Variable ptrue : P -> bool.
Variable peqb : P -> P -> bool.
Notation world := (world P).
Notation M := (M P).
Notation inv := (inv P).
Notation WF := (WF P).
Notation run := (run ptrue peqb).

(** ** Nothing is added through the context of a locked circuit *)
Section Locked.
Variables a c : nat.
(** Circuit [c] is locked and its context [a] is active, not frozen. *)
Definition lockedctx (w : world) : Prop :=
  w_active w = Some a /\ nth_error (w_ctx w) a = Some (c, false) /\
  exists x, nth_error (w_circ w) c = Some x /\ c_locked x = true.
(** The same with the context frozen. *)
Definition froze (w : world) : world := set_ctx w (set_nth a (c, true) (w_ctx w)).

(** Code that does not look at the context. *)
Definition blind {A} (m : M A) : Prop :=
  forall w, lockedctx w -> lockedctx (fst (m w)) /\ m (froze w) = (froze (fst (m w)), snd (m w)).
(** Code that fails in the context of a locked circuit. *)
Definition stuck {A} (m : M A) : Prop :=
  forall w, lockedctx w -> exists e, snd (m w) = Err e /\ ((exists r, snd (m (froze w)) = Ok r) -> e = CircuitError).

Lemma blind_bind {A B} (m : M A) (k : A -> M B) : blind m -> (forall x, blind (k x)) -> blind (mbind m k).
Proof.
  intros H K w Hw. destruct (H w Hw) as [H1 H2]. unfold mbind. rewrite H2.
  destruct (m w) as [w' [x|e]]; cbn [fst snd] in *; [|auto]. now apply K.
Qed.
Lemma stuck_bind {A B} (m : M A) (k : A -> M B) : blind m -> (forall x, stuck (k x)) -> stuck (mbind m k).
Proof.
  intros H K w Hw. destruct (H w Hw) as [H1 H2]. unfold mbind. rewrite H2.
  destruct (m w) as [w' [x|e]]; cbn [fst snd] in *; [now apply K|].
  exists e. split; [reflexivity|]. intros [r Hr]. discriminate.
Qed.
Lemma stuck_first {A B} (m : M A) (k : A -> M B) : stuck m -> stuck (mbind m k).
Proof.
  intros H w Hw. destruct (H w Hw) as (e & He & Hf). unfold mbind. destruct (m w) as [w' [x|e']]; cbn [snd] in *; [discriminate|].
  injection He as ->. exists e. split; [reflexivity|]. intros [r Hr]. apply Hf.
  destruct (m (froze w)) as [w2 [x|e']]; cbn [snd] in *; [eauto|discriminate].
Qed.
Lemma stuck_raise {A} e : stuck (@raise P A e).
Proof. intros w _. exists e. split; [reflexivity|]. intros [r Hr]. discriminate. Qed.

Lemma blind_id {A} (m : M A) : (forall w, fst (m w) = w) -> (forall w, snd (m (froze w)) = snd (m w)) -> blind m.
Proof.
  intros H K w Hw. rewrite H. split; [exact Hw|]. rewrite <- K. specialize (H (froze w)). destruct (m (froze w)). cbn in *. now subst.
Qed.
Lemma blind_ret {A} (x : A) : blind (ret x). Proof. now apply blind_id. Qed.
Lemma blind_raise {A} e : blind (@raise P A e). Proof. now apply blind_id. Qed.
Lemma blind_lift {A} (r : res A) : blind (lift r). Proof. now apply blind_id. Qed.
Lemma blind_read {A} (f : world -> A) : (forall w, f (froze w) = f w) -> blind (read f).
Proof. intros H. apply blind_id; [reflexivity|]. intros w. cbn. now rewrite H. Qed.
Lemma blind_get_circ d : blind (@get_circ P d). Proof. apply blind_id; [apply get_circ_id|]. reflexivity || (intros w; unfold get_circ, froze; cbn; now destruct (nth_error (w_circ w) d)). Qed.
Lemma blind_get_op d : blind (@get_op P d).
Proof. apply blind_id; [apply get_op_id|]. intros w. unfold get_op, froze. cbn. now destruct (nth_error (w_op w) d). Qed.
Lemma blind_get_cls d : blind (@get_cls P d).
Proof. apply blind_id; [apply get_cls_id|]. intros w. unfold get_cls, froze. cbn. now destruct (nth_error (w_cls w) d). Qed.

(** Changes that leave contexts and circuits alone. *)
Lemma blind_change {A} (m : M A) : (forall w, w_active (fst (m w)) = w_active w /\ w_ctx (fst (m w)) = w_ctx w /\ w_circ (fst (m w)) = w_circ w) ->
  (forall w l, m (set_ctx w l) = (set_ctx (fst (m w)) l, snd (m w))) -> blind m.
Proof.
  intros H K w (A1 & A2 & A3). destruct (H w) as (H1 & H2 & H3). split.
  - unfold lockedctx. rewrite H1, H2, H3. auto.
  - unfold froze. rewrite K, H2. reflexivity.
Qed.
Lemma blind_more_op y : blind (fun w => (set_op w (w_op w ++ [y]), Ok tt)).
Proof. apply blind_change; intros w; repeat split. Qed.
Lemma blind_put_op o y : blind (@put_op P o y).
Proof. apply blind_change; intros w; repeat split. Qed.
Lemma blind_upd_op o f : blind (@upd_op P o f).
Proof. unfold upd_op. apply blind_bind; [apply blind_get_op|]. intros x. apply blind_put_op. Qed.
Lemma blind_settle k : blind (@settle P k).
Proof.
  unfold settle. apply blind_bind; [apply blind_get_cls|]. intros x.
  destruct (k_kind x); try apply blind_ret; (destruct (_ && _ && _); [|apply blind_ret]);
  (destruct (k_ncontrol x); [|apply blind_ret]); (destruct (k_ntarget x); [|apply blind_ret]);
  apply blind_change; intros w; repeat split.
Qed.
Lemma blind_check_qubits k qs : blind (@check_qubits P k qs).
Proof.
  unfold check_qubits, cls_num_qubits. apply blind_bind; [apply blind_get_cls|]. intros x. destruct (k_numq x); [|apply blind_ret].
  apply blind_bind; [apply blind_bind; [apply blind_settle|]; intros _; apply blind_bind; [apply blind_get_cls|]; intros y; destruct (k_numq y); [apply blind_ret|apply blind_raise]|].
  intros n0. destruct (Nat.eqb _ _); [apply blind_ret|apply blind_raise].
Qed.
Lemma blind_check_params x ps : blind (@check_params P x ps).
Proof. unfold check_params. destruct (k_nparams x); [|apply blind_raise]. destruct (Nat.eqb _ _); [apply blind_ret|apply blind_raise]. Qed.
Lemma blind_var_put v x : blind (@var_put P v x).
Proof.
  apply blind_change; intros w; unfold var_put; cbn; destruct (nth_error (w_var w) v) as [[s y]|]; repeat split.
Qed.
Lemma blind_set_vars vs : forall ps, blind (@set_vars P vs ps).
Proof.
  induction vs as [|v vs IH]; intros [|p ps]; simpl; try apply blind_ret; try apply blind_raise.
  apply blind_bind; [apply blind_var_put|auto].
Qed.
Lemma blind_exit t : blind (fun w => (set_exit w (w_exit w ++ [t]), Ok tt)).
Proof. apply blind_change; intros w; repeat split. Qed.
Lemma blind_view d (s : circ -> side) (f : circ -> side -> circ) :
  (forall x y, c_locked (f x y) = c_locked x) ->
  blind (let! x := @get_circ P d in
         match s_cache (s x) with
         | Some r => ret r
         | None => let! bs := read (@w_bit P) in let! r := lift (concat_regs bs (s x)) in
                   put_circ d (f x (mkSide (s_regs (s x)) (Some r))) ;; ret r
         end).
Proof.
  intros Hf w Hw. unfold mbind, get_circ, read, lift. cbn [froze set_ctx w_circ w_bit].
  destruct (nth_error (w_circ w) d) as [x|] eqn:E; cbn [the ret raise fst snd]; [|auto].
  destruct (s_cache (s x)); [split; [exact Hw|reflexivity]|].
  change (w_bit (froze w)) with (w_bit w). destruct (concat_regs (w_bit w) (s x)) as [r|e]; cbn [fst snd put_circ ret]; [|split; [exact Hw|reflexivity]]. split; [|reflexivity].
  destruct Hw as (A1 & A2 & z & A3 & A4). unfold lockedctx. cbn. split; [exact A1|]. split; [exact A2|].
  destruct (Nat.eq_dec d c) as [->|n].
  - exists (f x (mkSide (s_regs (s x)) (Some r))). rewrite (set_nth_same _ _ _ _ A3). split; [auto|]. rewrite Hf. congruence.
  - exists z. rewrite set_nth_other by auto. auto.
Qed.
Lemma blind_qubits d : blind (@qubits P d).
Proof. apply (blind_view d c_q with_q). reflexivity. Qed.
Lemma blind_bits d : blind (@bits P d).
Proof. apply (blind_view d c_b with_b). reflexivity. Qed.

Lemma read_bind {A B} (f : world -> A) (k : A -> M B) w : mbind (read f) k w = k (f w) w.
Proof. reflexivity. Qed.
Lemma stuck_op_init k o qs : stuck (op_init ptrue k o qs).
Proof.
  unfold op_init. intros w Hw. rewrite !read_bind. change (w_active (froze w)) with (w_active w).
  destruct Hw as (Ha & Hw). rewrite Ha.
  match goal with |- exists e, snd ((?m ;; ?k) w) = _ /\ _ => assert (G : stuck (m ;; k)) end.
  { apply stuck_bind.
    - destruct qs as [l|]; [|apply blind_raise]. apply blind_bind; [apply blind_check_qubits|]. intros _.
      apply blind_bind; [apply blind_get_cls|]. intros x. apply blind_upd_op.
    - intros _ v (B1 & B2 & x & B3 & B4). exists CircuitError. split; [|auto]. unfold mbind, get_ctx. rewrite B2. cbn [the ret raise snd fst].
      now rewrite (append_locked P ptrue c o v x B3 B4). }
  apply G. split; auto.
Qed.
Lemma stuck_par_init x k o ps qs : stuck (par_init ptrue x k o ps qs).
Proof.
  unfold par_init. apply stuck_bind; [apply blind_check_params|]. intros _. apply stuck_bind; [apply blind_upd_op|]. intros _. apply stuck_op_init.
Qed.
Lemma stuck_construct k ps aq : stuck (construct ptrue k ps aq).
Proof.
  unfold construct. apply stuck_bind; [apply blind_get_cls|]. intros x. apply stuck_bind; [apply blind_read; reflexivity|]. intros o.
  apply stuck_bind; [apply blind_more_op|]. intros _. apply stuck_first.
  destruct (k_kind x); destruct ps as [ps|]; destruct aq as [qs|ct tg]; try apply stuck_raise; try apply stuck_op_init; try apply stuck_par_init;
  destruct (split_args _ _) as [[ctl tgt] qs']; (apply stuck_bind; [apply blind_upd_op|]; intros _);
    try apply stuck_op_init; apply stuck_first, stuck_par_init.
Qed.
Lemma stuck_call_op o aq : stuck (call_op ptrue o aq).
Proof.
  unfold call_op. apply stuck_bind; [apply blind_get_op|]. intros x. apply stuck_bind; [apply blind_get_cls|]. intros k.
  destruct (k_kind k); destruct aq; try apply stuck_raise; apply stuck_construct.
Qed.
Lemma stuck_replay qm bm o : stuck (replay ptrue qm bm o).
Proof.
  unfold replay. apply stuck_bind; [apply blind_get_op|]. intros x. apply stuck_bind; [apply blind_get_cls|]. intros k.
  apply stuck_bind; [apply blind_lift|]. intros mq.
  destruct (k_kind k); try (destruct bm); try (apply stuck_bind; [apply blind_lift|]; intros mb);
    try (apply stuck_first, stuck_construct);
  (apply stuck_bind; [destruct mq as [|? [|? [|? ?]]]; simpl; try apply blind_ret; apply blind_raise|]; intros aq; apply stuck_first, stuck_construct).
Qed.

(** A circuit that has operations. *)
Definition has_ops (t : nat) (w : world) : Prop := exists x o os, nth_error (w_circ w) t = Some x /\ c_ops x = o :: os.
Definition stuckT (t : nat) {A} (m : M A) : Prop :=
  forall w, lockedctx w -> has_ops t w -> exists e, snd (m w) = Err e /\ ((exists r, snd (m (froze w)) = Ok r) -> e = CircuitError).
Lemma stuckT_bind t {A B} (m : M A) (k : A -> M B) : blind m -> inv (has_ops t) m -> (forall x, stuckT t (k x)) -> stuckT t (mbind m k).
Proof.
  intros H J K w Hw Ht. destruct (H w Hw) as [H1 H2]. pose proof (J w Ht) as H3. unfold mbind. rewrite H2.
  destruct (m w) as [w' [x|e]]; cbn [fst snd] in *; [now apply K|].
  exists e. split; [reflexivity|]. intros [r Hr]. discriminate.
Qed.
Lemma stuckT_raise t {A} e : stuckT t (@raise P A e).
Proof. intros w _ _. exists e. split; [reflexivity|]. intros [r Hr]. discriminate. Qed.
Lemma has_ops_qubits t d : inv (has_ops t) (@qubits P d).
Proof.
  apply inv_qubits. intros w e x f Hf E (y & o & os & Ey & Eo). destruct (Hf x) as (F1 & _).
  destruct (nth_set_nth (w_circ w) e x (f x) t y E Ey) as [(-> & -> & K)|(n & K)]; [|exists y, o, os; auto].
  exists (f x), o, os. split; [exact K|congruence].
Qed.
Lemma has_ops_bits t d : inv (has_ops t) (@bits P d).
Proof.
  apply inv_bits. intros w e x f Hf E (y & o & os & Ey & Eo). destruct (Hf x) as (F1 & _).
  destruct (nth_set_nth (w_circ w) e x (f x) t y E Ey) as [(-> & -> & K)|(n & K)]; [|exists y, o, os; auto].
  exists (f x), o, os. split; [exact K|congruence].
Qed.
Lemma stuckT_call t qs ba : stuckT t (call_circuit ptrue t qs ba).
Proof.
  unfold call_circuit. intros w Hw Ht. rewrite !read_bind. change (w_active (froze w)) with (w_active w).
  pose proof Hw as (Ha & Hc & x & Hx & Hl). rewrite Ha. 
  assert (E1 : get_ctx a w = (w, Ok (c, false))) by (unfold get_ctx; now rewrite Hc).
  assert (E2 : get_ctx a (froze w) = (froze w, Ok (c, true))) by (unfold get_ctx; cbn; now rewrite (set_nth_same _ _ _ _ Hc)).
  rewrite (bind_ok _ _ _ _ _ _ E1), (bind_ok _ _ _ _ _ _ E2). cbn [fst].
  destruct (Nat.eqb c t). { exists TypeError. split; [reflexivity|]. intros [r Hr]. discriminate. }
  match goal with |- exists e, snd (?m w) = _ /\ _ => assert (G : stuckT t m); [|exact (G w Hw Ht)] end.
  apply stuckT_bind; [apply blind_qubits|apply has_ops_qubits|]. intros vq.
  destruct (negb _); [apply stuckT_raise|].
  apply stuckT_bind; [apply blind_read; reflexivity|apply inv_read|]. intros bl.
  apply stuckT_bind.
  { destruct bl; [|apply blind_ret]. apply blind_bind; [apply blind_bits|]. intros vb. destruct (negb _); [apply blind_raise|].
    apply blind_bind; [apply blind_lift|]. intros ks. apply blind_ret. }
  { destruct bl; [|apply inv_ret]. apply inv_bind; [apply has_ops_bits|]. intros vb. destruct (negb _); [apply inv_raise|].
    apply inv_bind; [apply inv_lift|]. intros ks. apply inv_ret. }
  intros bm. apply stuckT_bind; [apply blind_lift|apply inv_lift|]. intros ks v Hv (y & o & os & Ey & Eo).
  assert (Ey' : nth_error (w_circ (froze v)) t = Some y) by exact Ey.
  rewrite (bind_ok _ _ _ _ _ _ (get_circ_some P t v y Ey)), (bind_ok _ _ _ _ _ _ (get_circ_some P t (froze v) y Ey')), Eo. simpl iterM.
  apply stuck_first; [apply stuck_replay|exact Hv].
Qed.

Notation builds := (WorldSpec2.builds P).
Lemma locked_stuck x (w : world) : lockedctx w -> builds w x ->
  exists e, snd (do_call ptrue peqb x w) = Err e /\ (snd (do_call ptrue peqb x (froze w)) = Ok tt -> e = CircuitError).
Proof.
  intros Hw Hb.
  assert (T : forall t, (exists y, nth_error (w_circ w) t = Some y /\ c_ops y <> []) -> has_ops t w).
  { intros t (y & E & N). destruct (c_ops y) as [|o os] eqn:Eo; [congruence|]. exists y, o, os. auto. }
  assert (G : exists e, snd (do_call ptrue peqb x w) = Err e /\ ((exists r, snd (do_call ptrue peqb x (froze w)) = Ok r) -> e = CircuitError)).
  2: { destruct G as (e & G1 & G2). exists e. split; [exact G1|]. intros H. apply G2. eauto. }
  destruct x; simpl in Hb; try contradiction; cbn [do_call].
  - unfold unit_of. now apply stuck_first; [apply stuck_construct|].
  - unfold unit_of. now apply stuck_first; [apply stuck_call_op|].
  - unfold call_plain. apply T in Hb. revert w Hw Hb T. intros w Hw Hb _.
    assert (G : stuckT t (let! x := @get_circ P t in if c_par x then raise TypeError else call_circuit ptrue t qs ba)); [|exact (G w Hw Hb)].
    apply stuckT_bind; [apply blind_get_circ|apply inv_get_circ|]. intros x. destruct (c_par x); [apply stuckT_raise|apply stuckT_call].
  - unfold call_parametric. apply T in Hb. 
    match goal with |- exists e, snd (?m w) = _ /\ _ => assert (G : stuckT t m); [|exact (G w Hw Hb)] end.
    apply stuckT_bind; [apply blind_get_circ|apply inv_get_circ|]. intros x. destruct (negb (c_par x)); [apply stuckT_raise|].
    apply stuckT_bind; [apply blind_read; reflexivity|apply inv_read|]. intros act.
    apply stuckT_bind; [destruct act; [apply blind_set_vars|apply blind_ret]| |].
    { destruct act; [|apply inv_ret]. apply inv_set_vars. intros u v s y p _ Hu. exact Hu. }
    intros _. apply stuckT_bind; [apply blind_exit|intros u Hu; exact Hu|]. intros _. apply stuckT_call.
Qed.
End Locked.
End Ctx3.

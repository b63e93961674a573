(** Entering and leaving contexts, locked circuits, variables of parametric circuits. *)
From Coq Require Import List ZArith String Bool Arith Lia.
From Verif Require Import Py RegisterModel WorldModel WorldSpec WorldInv WorldInv2 WorldInv5 WorldInv6 WorldInv7 WorldWf WorldWf2 WorldWf3.
Import ListNotations.
Local Open Scope nat_scope.

Section Ctx.
Variable P : Type.
Variable ptrue : P -> bool.
Variable peqb : P -> P -> bool.
Notation world := (world P).
Notation M := (M P).
Notation inv := (inv P).
Notation WF := (WF P).
Notation run := (run ptrue peqb).

(** ** Unsetting variables *)
Definition is_unset (w : world) (v : nat) : Prop := exists s, nth_error (w_var w) v = Some (s, None).

(** Same names, and a value is kept or unset. *)
Definition fewer (l l' : list (string * option P)) : Prop :=
  List.length l' = List.length l /\
  forall v s x, nth_error l v = Some (s, x) -> nth_error l' v = Some (s, x) \/ nth_error l' v = Some (s, None).
Lemma fewer_refl l : fewer l l. Proof. split; auto. Qed.
Lemma fewer_trans a b c : fewer a b -> fewer b c -> fewer a c.
Proof.
  intros [L1 H1] [L2 H2]. split; [congruence|]. intros v s x E. destruct (H1 v s x E) as [K|K]; [auto|].
  destruct (H2 v s None K); auto.
Qed.
Lemma fewer_unset a b v s : fewer a b -> nth_error a v = Some (s, None) -> nth_error b v = Some (s, None).
Proof. intros [_ H] E. now destruct (H v s None E). Qed.

Lemma unset_run vs : forall w : world, Forall (fun v => v < List.length (w_var w)) vs ->
  exists l, iterM (fun v => var_put v None) vs w = (set_var w l, Ok tt) /\ fewer (w_var w) l /\
    (forall v, In v vs -> exists s, nth_error l v = Some (s, None)) /\
    (forall v, ~ In v vs -> nth_error l v = nth_error (w_var w) v).
Proof.
  induction vs as [|v vs IH]; intros w F; simpl.
  - exists (w_var w). split; [now destruct w|]. split; [apply fewer_refl|]. split; [contradiction|auto].
  - inversion F as [|? ? Hv F']; subst. unfold mbind, var_put at 1.
    destruct (nth_error (w_var w) v) as [[s x]|] eqn:E; [|apply nth_error_None in E; lia].
    destruct (IH (set_var w (set_nth v (s, None) (w_var w)))) as (l & El & Hl & H1 & H2).
    { cbn. now rewrite set_nth_length. }
    cbn in *. rewrite El. exists l. split; [reflexivity|].
    assert (Fv : fewer (w_var w) (set_nth v (s, None) (w_var w))).
    { split; [apply set_nth_length|]. intros u t y Hu.
      destruct (nth_set_nth _ v _ (s, None) u _ E Hu) as [(-> & [= -> ->] & K)|(n & K)]; auto. }
    split; [eapply fewer_trans; eauto|]. split.
    + intros u [<-|Hu]; [|auto]. destruct (in_dec Nat.eq_dec v vs) as [i|n]; [auto|].
      exists s. rewrite H2 by auto. eapply set_nth_same; eauto.
    + intros u Hu. rewrite H2 by tauto. apply set_nth_other. tauto.
Qed.

Lemma resets_run ts : forall w : world, WF w -> Forall (fun t => t < List.length (w_circ w)) ts ->
  exists l, iterM (@reset_variables P) ts w = (set_var w l, Ok tt) /\ fewer (w_var w) l /\
    (forall t x v, In t ts -> nth_error (w_circ w) t = Some x -> In v (c_vars x) -> exists s, nth_error l v = Some (s, None)) /\
    (forall v, (forall t x, In t ts -> nth_error (w_circ w) t = Some x -> ~ In v (c_vars x)) -> nth_error l v = nth_error (w_var w) v).
Proof.
  induction ts as [|t ts IH]; intros w W F; simpl.
  - exists (w_var w). split; [now destruct w|]. split; [apply fewer_refl|]. split; [contradiction|auto].
  - inversion F as [|? ? Ht F']; subst.
    destruct (nth_error (w_circ w) t) as [x|] eqn:E; [|apply nth_error_None in E; lia].
    destruct (unset_run (c_vars x) w) as (l1 & E1 & L1 & A1 & B1).
    { apply Forall_forall. intros v Hv. eapply wf_vars; eauto. }
    unfold mbind at 1, reset_variables at 1. rewrite (bind_ok _ _ _ _ _ _ (get_circ_some P t w x E)), E1.
    assert (W1 : WF (set_var w l1)).
    { destruct W. constructor; auto. cbn. intros c y v Hc Hv. destruct L1 as [L1 _]. rewrite L1. eauto. }
    destruct (IH (set_var w l1) W1 F') as (l2 & E2 & L2 & A2 & B2). cbn in *. rewrite E2. exists l2.
    split; [reflexivity|]. split; [eapply fewer_trans; eauto|]. split.
    + intros u y v [<-|Hu] Ey Hv.
      * rewrite E in Ey. injection Ey as <-. destruct (A1 v Hv) as [s Hs]. exists s. eapply fewer_unset; eauto.
      * eapply A2; eauto.
    + intros v Hv. rewrite B2 by (intros u y Hu; apply Hv; auto). apply B1. eapply Hv; eauto.
Qed.

(** ** Leaving a context *)
Definition left_circ (x : circ) : circ := with_locked (if c_par x then with_pfrozen x true else x) true.

Lemma exit_run (w : world) a c b x : WF w -> nth_error (w_ctx w) a = Some (c, b) -> nth_error (w_circ w) c = Some x ->
  exists l, ctx_exit a w = (mkWorld (w_cls w) (set_nth c (left_circ x) (w_circ w)) (w_op w) (w_qubit w) (w_bit w) l (w_ctx w) None [], Ok tt) /\
    fewer (w_var w) l /\
    (forall t y v, In t (w_exit w) -> nth_error (w_circ w) t = Some y -> In v (c_vars y) -> exists s, nth_error l v = Some (s, None)) /\
    (forall v, (forall t y, In t (w_exit w) -> nth_error (w_circ w) t = Some y -> ~ In v (c_vars y)) -> nth_error l v = nth_error (w_var w) v).
Proof.
  intros W Ea E. unfold ctx_exit, mbind at 1, get_ctx. rewrite Ea. cbn [the ret raise fst].
  set (f := fun x : circ => if c_par x then with_pfrozen x true else x).
  rewrite (bind_ok _ _ _ _ _ _ (upd_circ_run P c f w x E)).
  set (w1 := set_circ w (set_nth c (f x) (w_circ w))).
  unfold mbind at 1. cbv beta iota. unfold mbind at 1, read. cbn [w_exit set_active].
  set (w2 := set_active w1 None). change (w_exit w1) with (w_exit w).
  assert (Fx : c_vars (f x) = c_vars x /\ c_ops (f x) = c_ops x /\ c_ctx (f x) = c_ctx x) by (unfold f; destruct (c_par x); auto).
  destruct Fx as (F1 & F2 & F3).
  assert (W2 : WF w2).
  { assert (W1 : WF w1) by (eapply WF_plain; eauto). destruct W1. constructor; auto. cbn. discriminate. }
  destruct (resets_run (w_exit w) w2 W2) as (l & El & L & A & B).
  { apply Forall_forall. intros t Ht. cbn. rewrite set_nth_length. eapply wf_exit; eauto. }
  rewrite (bind_ok _ _ _ _ _ _ El). unfold mbind at 1. cbv beta iota. unfold lock.
  assert (E3 : nth_error (w_circ (set_exit (set_var w2 l) [])) c = Some (f x)) by (cbn; eapply set_nth_same; eauto).
  rewrite (upd_circ_run P c _ _ _ E3). cbn. rewrite set_nth_set_nth. exists l. split; [reflexivity|]. split; [exact L|].
  cbn in A, B. split.
  - intros t y v Ht Ey Hv. destruct (nth_set_nth _ c x (f x) t y E Ey) as [(-> & -> & K)|(n & K)].
    + eapply A; [exact Ht|exact K|]. now rewrite F1.
    + eapply A; eauto.
  - intros v Hv. apply B. intros t y Ht Ey. destruct (nth_set_nth_inv _ c x (f x) t y E Ey) as [(-> & ->)|(n & K)].
    + rewrite F1. eauto.
    + eauto.
Qed.

(** ** Entering *)
Lemma context_run (w : world) c x : WF w -> nth_error (w_circ w) c = Some x ->
  exists a b, nth_error (w_ctx (fst (context c w))) a = Some (c, b) /\ snd (context c w) = Ok a /\
    nth_error (w_circ (fst (context c w))) c = Some (with_ctx x (Some a)) /\
    ((c_ctx x = Some a /\ fst (context c w) = w) \/
     (c_ctx x = None /\ fst (context c w) =
        set_circ (set_ctx w (w_ctx w ++ [(c, false)])) (set_nth c (with_ctx x (Some a)) (w_circ w)))).
Proof.
  intros W E. unfold context. rewrite (bind_ok _ _ _ _ _ _ (get_circ_some P c w x E)). destruct (c_ctx x) as [a|] eqn:Ec.
  - destruct (wf_own _ _ W c x a E Ec) as [b Hb]. exists a, b. cbn. split; [exact Hb|]. split; [reflexivity|]. split; [|auto]. rewrite E. f_equal.
    unfold with_ctx. destruct x. cbn in *. now subst.
  - exists (List.length (w_ctx w)), false. unfold mbind, read, put_circ. cbn.
    split; [rewrite nth_error_app2, Nat.sub_diag by auto; reflexivity|]. split; [reflexivity|]. split; [eapply set_nth_same; eauto|]. auto.
Qed.

Definition enter (c : nat) : M unit := let! a := context c in ctx_enter a.

Lemma with_unfold c body (w : world) :
  run (With c body) w =
  match context c w with
  | (w1, Ok a) => match ctx_enter a w1 with
                  | (w2, Ok _) => finally (run body w2) (ctx_exit a)
                  | (w2, Err e) => (w2, Err e)
                  end
  | (w1, Err e) => (w1, Err e)
  end.
Proof.
  simpl. unfold mbind. destruct (context c w) as [w1 [a|e]]; [|reflexivity]. now destruct (ctx_enter a w1) as [w2 [u|e]].
Qed.

(** What [__enter__] does when it does not raise. *)
Lemma enter_ok (w w' : world) a : ctx_enter a w = (w', Ok tt) -> w_active w = None /\ w_active w' = Some a /\ w_ctx w' = w_ctx w /\
  exists cx x, nth_error (w_ctx w) a = Some cx /\ nth_error (w_circ w) (fst cx) = Some x /\ c_locked x = false.
Proof.
  unfold ctx_enter, mbind at 1, get_ctx. destruct (nth_error (w_ctx w) a) as [cx|] eqn:E; cbn [the ret raise]; [|discriminate].
  unfold mbind at 1, get_circ. destruct (nth_error (w_circ w) (fst cx)) as [x|] eqn:Ex; cbn [the ret raise]; [|discriminate].
  destruct (c_locked x) eqn:L; [discriminate|]. unfold mbind at 1, read. destruct (w_active w) eqn:Ea; [discriminate|].
  unfold mbind at 1. cbv beta iota. set (w1 := set_active w (Some a)). intros H.
  assert (K : inv (fun v => w_active v = Some a /\ w_ctx v = w_ctx w) (let! _ := @qubits P (fst cx) in let! _ := bits (fst cx) in ret tt)).
  { apply inv_ctx_enter_views. intros v d y f _ _ Hv. exact Hv. }
  specialize (K w1 (conj eq_refl eq_refl)). rewrite H in K. cbn in K. destruct K. repeat split; auto. exists cx, x. auto.
Qed.

(** While a context is active nothing changes that. *)
Lemma busy_enter (w : world) c a : WF w -> w_active w = Some a -> 
  w_active (fst (enter c w)) = Some a /\ (exists e, snd (enter c w) = Err e) /\ fst (enter c w) = fst (context c w).
Proof.
  intros W Ha. unfold enter, mbind. destruct (nth_error (w_circ w) c) as [x|] eqn:E.
  - destruct (context_run w c x W E) as (b & f & H1 & H2 & H3 & H4).
    destruct (context c w) as [w1 r]; cbn in *. subst r.
    assert (Ha1 : w_active w1 = Some a) by (destruct H4 as [[_ ->]|[_ ->]]; exact Ha).
    assert (K : exists e, ctx_enter b w1 = (w1, Err e)).
    { unfold ctx_enter, mbind at 1, get_ctx. rewrite H1. cbn [the ret raise fst].
      rewrite (bind_ok _ _ _ _ _ _ (get_circ_some P c w1 _ H3)). cbn [c_locked with_ctx].
      destruct (c_locked x); [eexists; reflexivity|]. unfold mbind, read. rewrite Ha1. eexists. reflexivity. }
    destruct K as [e ->]. cbn. split; [exact Ha1|]. split; [eauto|reflexivity].
  - unfold context. rewrite (bind_err _ _ _ _ _ _ (get_circ_none P c w E)). cbn. eauto.
Qed.
Lemma busy_with (w : world) c body a : WF w -> w_active w = Some a ->
  run (With c body) w = enter c w.
Proof.
  intros W Ha. rewrite with_unfold. destruct (busy_enter w c a W Ha) as (_ & [e He] & _). unfold enter, mbind in *.
  destruct (context c w) as [w1 [b|e1]]; [|reflexivity]. destruct (ctx_enter b w1) as [w2 [u|e2]]; [discriminate He|reflexivity].
Qed.
Lemma frozen_active (w : world) b e : w_active (fst (set_frozen b e w)) = w_active w.
Proof.
  unfold set_frozen, mbind, read. destruct (w_active w) as [a|] eqn:E; cbn; [|auto]. unfold get_ctx. destruct (nth_error (w_ctx w) a); cbn; auto.
Qed.

Lemma active_run p : forall (w : world) a, WF w -> w_active w = Some a -> w_active (fst (run p w)) = Some a.
Proof.
  induction p; intros w a W Ha.
  - exact Ha.
  - cbn. now rewrite call_active.
  - cbn. unfold mbind. specialize (IHp1 w a W Ha). pose proof (WF_run P ptrue peqb p1 w W) as W1.
    destruct (run p1 w) as [w' [u|e]]; cbn in *; [|auto]. now apply IHp2.
  - rewrite (busy_with w c p a W Ha). now apply busy_enter.
  - cbn. unfold mbind. pose proof (frozen_active w true CircuitError) as H. pose proof (WF_frozen P true CircuitError w W) as W1.
    destruct (set_frozen true CircuitError w) as [w1 [u|e]]; cbn in *; [|congruence].
    rewrite fst_finally, frozen_active. apply IHp; congruence.
  - cbn. auto.
  - exact Ha.
Qed.
Lemma active_visits p : forall (w v : world) a, WF w -> w_active w = Some a -> visits P ptrue peqb p w v -> w_active v = Some a.
Proof.
  assert (A : forall q (w v : world) a, WF w -> w_active w = Some a -> v = w \/ v = fst (run q w) -> w_active v = Some a).
  { intros q w v a W Ha [->| ->]; [exact Ha|now apply active_run]. }
  induction p; intros w v a W Ha Hv; match type of Hv with visits _ _ _ ?q _ _ => pose proof (A q w v a W Ha) as A' end; simpl in Hv, A'.
  - tauto.
  - tauto.
  - destruct Hv as [E|[E|[H|H]]]; [tauto|tauto|eauto|]. pose proof (active_run p1 w a W Ha) as K. pose proof (WF_run P ptrue peqb p1 w W) as W1.
    destruct (run p1 w) as [w' [u|e]]; [|easy]. cbn in *. eauto.
  - destruct Hv as [E|[E|H]]; [tauto|tauto|]. fold (enter c) in H. destruct (busy_enter w c a W Ha) as (_ & [e He] & _).
    destruct (enter c w) as [w1 [u|e1]]; [discriminate He|easy].
  - destruct Hv as [E|[E|H]]; [tauto|tauto|]. pose proof (frozen_active w true CircuitError) as K. pose proof (WF_frozen P true CircuitError w W) as W1.
    destruct (set_frozen true CircuitError w) as [w1 [u|e]]; [|easy]. cbn in *. eapply IHp; [exact W1| |exact H]. congruence.
  - destruct Hv as [E|[E|H]]; [tauto|tauto|eauto].
  - tauto.
Qed.

(** The whole [with] statement. *)
Lemma with_run (w w1 : world) c body : WF w -> enter c w = (w1, Ok tt) ->
  exists l x, nth_error (w_circ (fst (run body w1))) c = Some x /\
  let w2 := fst (run body w1) in
  run (With c body) w = (mkWorld (w_cls w2) (set_nth c (left_circ x) (w_circ w2)) (w_op w2) (w_qubit w2) (w_bit w2) l (w_ctx w2) None [], snd (run body w1)) /\
  fewer (w_var w2) l /\
    (forall t y v, In t (w_exit w2) -> nth_error (w_circ w2) t = Some y -> In v (c_vars y) -> exists s, nth_error l v = Some (s, None)) /\
    (forall v, (forall t y, In t (w_exit w2) -> nth_error (w_circ w2) t = Some y -> ~ In v (c_vars y)) -> nth_error l v = nth_error (w_var w2) v).
Proof.
  intros W H. rewrite with_unfold. unfold enter, mbind in H.
  destruct (nth_error (w_circ w) c) as [x0|] eqn:E.
  2: { unfold context in H. rewrite (bind_err _ _ _ _ _ _ (get_circ_none P c w E)) in H. discriminate. }
  destruct (context_run w c x0 W E) as (a & f & H1 & H2 & H3 & H4).
  pose proof (WF_context P c w W) as W0.
  destruct (context c w) as [w0 r]; cbn in *. subst r. rewrite H. cbn.
  pose proof (WF_enter P a w0 W0) as W1. rewrite H in W1. cbn in W1.
  pose proof (enter_ok w0 w1 a H) as (_ & Ha & Hc & _).
  rewrite <- Hc in H1.
  pose proof (WF_run P ptrue peqb body w1 W1) as W2. pose proof (kept_run P ptrue peqb body w1) as K.
  pose proof (active_run body w1 a W1 Ha) as Ha2.
  destruct (g_ctx _ _ _ K a (c, f) H1) as [f' Hf']. cbn in Hf'.
  destruct (run body w1) as [w2 r2]; cbn in *.
  destruct (nth_error (w_circ w2) c) as [x|] eqn:Ex.
  2: { apply nth_error_None in Ex. pose proof (wf_ctx _ _ W2 a _ Hf'). cbn in *. lia. }
  destruct (exit_run w2 a c f' x W2 Hf' Ex) as (l & El & L). rewrite El. exists l, x. auto.
Qed.

(** Entering does not raise. *)
Lemma enter_free (w : world) c x : WF w -> JQ P w -> JB P w -> small P w -> nth_error (w_circ w) c = Some x -> c_locked x = false ->
  w_active w = None -> exists w', enter c w = (w', Ok tt).
Proof.
  intros W Q B S E L Ha. unfold enter, mbind.
  destruct (context_run w c x W E) as (a & f & H1 & H2 & H3 & H4).
  assert (Q1 : JQ P (fst (context c w))).
  { destruct H4 as [[_ ->]|[_ ->]]; [exact Q|]. apply (JQ_same P w); [|exact Q].
    unfold same. cbn. rewrite !set_nth_map. cbn. rewrite !set_nth_id by (now rewrite nth_error_map, E). auto. }
  assert (B1 : JB P (fst (context c w))).
  { destruct H4 as [[_ ->]|[_ ->]]; [exact B|]. unfold JB in *. cbn. rewrite !set_nth_map. cbn.
    now rewrite !set_nth_id by (now rewrite nth_error_map, E). }
  assert (S1 : small P (fst (context c w))) by (destruct H4 as [[_ ->]|[_ ->]]; exact S).
  assert (A1 : w_active (fst (context c w)) = None) by (destruct H4 as [[_ ->]|[_ ->]]; exact Ha).
  destruct (context c w) as [w1 r]; cbn in *. subst r.
  unfold ctx_enter, mbind at 1, get_ctx. rewrite H1. cbn [the ret raise fst].
  rewrite (bind_ok _ _ _ _ _ _ (get_circ_some P c w1 _ H3)). cbn [c_locked with_ctx]. rewrite L.
  unfold mbind at 1, read. rewrite A1. unfold mbind at 1. cbv beta iota. set (w2 := set_active w1 (Some a)).
  destruct (qubits_run P c w2 (with_ctx x (Some a)) Q1 S1 H3) as (r & Er & _).
  rewrite (bind_ok _ _ _ _ _ _ Er).
  assert (E3 : nth_error (w_circ (cached_q P w2 c (with_ctx x (Some a)) r)) c = Some (with_q (with_ctx x (Some a)) (mkSide (s_regs (c_q (with_ctx x (Some a)))) (Some r)))).
  { cbn. eapply set_nth_same; eauto. }
  destruct (bits_run P c (cached_q P w2 c (with_ctx x (Some a)) r) _ ltac:(unfold JB, cached_q; cbn; rewrite set_nth_map; cbn; rewrite set_nth_id; [exact B1|now rewrite nth_error_map, H3]) S1 E3) as (r' & _ & Er' & _).
  rewrite (bind_ok _ _ _ _ _ _ Er'). eexists. reflexivity.
Qed.
End Ctx.

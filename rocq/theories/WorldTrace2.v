(** When a circuit records: freezing, leaving and nesting of contexts; operations are recorded once. *)
From Coq Require Import List ZArith String Bool Arith Lia Sorted.
From Verif Require Import Py RegisterModel WorldModel WorldSpec WorldSpec3 WorldInv WorldInv2 WorldInv5 WorldWf WorldWf2 WorldWf3 WorldCtx WorldCtx3 WorldOps WorldBuild WorldReplay WorldTrace.
Import ListNotations.
Local Open Scope nat_scope.

Section Trace2.
Variable P : Type.
Variable ptrue : P -> bool.
Variable peqb : P -> P -> bool.
Notation world := (world P).
Notation M := (M P).
Notation inv := (inv P).
Notation run := (run ptrue peqb).
Notation do_call := (do_call ptrue peqb).
Notation visits := (visits P ptrue peqb).

(** ** Only the active context is frozen *)
Definition FL (w : world) : Prop := forall a c, nth_error (w_ctx w) a = Some (c, true) -> w_active w = Some a.

Lemma FL_context c : inv FL (@context P c).
Proof.
  intros w H. unfold context, mbind, get_circ. destruct (nth_error (w_circ w) c) as [x|]; cbn; [|exact H].
  destruct (c_ctx x); cbn; [exact H|]. intros a d Ha. cbn in *.
  destruct (Nat.lt_ge_cases a (List.length (w_ctx w))) as [L|L].
  - rewrite nth_error_app1 in Ha by exact L. eauto.
  - rewrite nth_error_app2 in Ha by exact L. destruct (a - List.length (w_ctx w)) as [|n]; cbn in Ha; [discriminate|]. destruct n; discriminate.
Qed.
Lemma frozen_run (w : world) b e : 
  set_frozen b e w = (w, Err e) /\ w_active w = None \/
  set_frozen b e w = (w, Err Undefined) \/
  exists a c f, w_active w = Some a /\ nth_error (w_ctx w) a = Some (c, f) /\
    set_frozen b e w = (set_ctx w (set_nth a (c, b) (w_ctx w)), Ok tt).
Proof.
  unfold set_frozen, mbind, read. destruct (w_active w) as [a|]; cbn; [|auto]. unfold get_ctx.
  destruct (nth_error (w_ctx w) a) as [[c f]|] eqn:E; cbn; [|auto]. right. right. exists a, c, f. auto.
Qed.
Lemma FL_frozen b e : inv FL (@set_frozen P b e).
Proof.
  intros w H. destruct (frozen_run w b e) as [[-> _]|[->|(a & c & f & Ha & Hc & ->)]]; [exact H|exact H|].
  intros a' c' E. cbn in *. destruct (nth_set_nth_inv (w_ctx w) a (c, f) (c, b) a' _ Hc E) as [(-> & _)|(n & E')]; [exact Ha|eauto].
Qed.
Lemma set_frozen_false (w w' : world) a c : set_frozen false AttributeError w = (w', Ok tt) -> w_active w = Some a -> nth_error (w_ctx w') a = Some (c, true) -> False.
Proof.
  intros E Ha Hc. destruct (frozen_run w false AttributeError) as [[E' _]|[E'|(a' & c' & f & Ha' & Hc' & E')]]; rewrite E in E'; try discriminate.
  injection E' as ->. cbn in Hc. assert (a' = a) by congruence. subst. erewrite set_nth_same in Hc by exact Hc'. discriminate.
Qed.
Lemma active_ctx (w : world) a : WF P w -> w_active w = Some a -> exists c f, nth_error (w_ctx w) a = Some (c, f).
Proof.
  intros W H. pose proof (wf_act _ _ W) as K. destruct (nth_error (w_ctx w) a) as [[c f]|] eqn:E; [eauto|]. exfalso.
  apply nth_error_None in E. specialize (K a H). lia.
Qed.

(** A program leaves the active context as it is, or not frozen. *)
Lemma FL_run p : forall w : world, WF P w -> FL w -> FL (fst (run p w)) /\
  forall a c, w_active w = Some a -> nth_error (w_ctx w) a = Some (c, false) -> nth_error (w_ctx (fst (run p w))) a = Some (c, false).
Proof.
  induction p; intros w W H.
  - auto.
  - cbn. rewrite call_ctx. split; [|auto]. intros a c Hc. rewrite call_active. rewrite call_ctx in Hc. eauto.
  - cbn. unfold mbind. destruct (IHp1 w W H) as [A B]. pose proof (WF_run P ptrue peqb p1 w W) as W1. pose proof (active_run P ptrue peqb p1 w) as Ac.
    destruct (run p1 w) as [w' [u|e]]; cbn in *; [|auto]. destruct (IHp2 w' W1 A) as [C D]. split; [exact C|]. intros. apply D; eauto.
  - rewrite with_unfold. pose proof (FL_context c w H) as H1. pose proof (WF_context P c w W) as W1.
    destruct (w_active w) as [a|] eqn:Ha.
    + destruct (busy_enter P w c a W Ha) as (B1 & [e B2] & B3). unfold enter, mbind in *.
      assert (K : forall a0 cx, nth_error (w_ctx w) a0 = Some cx -> nth_error (w_ctx (fst (context c w))) a0 = Some cx).
      { intros a0 cx E. unfold context, mbind, get_circ. destruct (nth_error (w_circ w) c) as [x|]; cbn; [|exact E].
        destruct (c_ctx x); cbn; [exact E|]. now apply nth_app_left. }
      destruct (context c w) as [w1 [b|e1]]; cbn [fst snd] in *; [|split; [exact H1|eauto]].
      destruct (ctx_enter b w1) as [w2 [u|e2]]; cbn [fst snd] in *; [discriminate|]. subst w2. split; [exact H1|eauto].
    + split; [|discriminate]. destruct (context c w) as [w1 [b|e1]]; cbn [fst snd] in *; [|exact H1].
      pose proof (WF_enter P b w1 W1) as W2. destruct (ctx_enter b w1) as [w2 [u|e2]] eqn:E; cbn [fst snd] in *.
      * destruct u. destruct (enter_ok P w1 w2 b E) as (N & Ha2 & Hc & _).
        assert (F2 : FL w2). { intros a0 c0 E0. rewrite Hc in E0. apply H1 in E0. congruence. }
        assert (C2 : exists c0, nth_error (w_ctx w2) b = Some (c0, false)).
        { destruct (active_ctx w2 b W2 Ha2) as (c0 & f & E0). destruct f; [|eauto]. exfalso. rewrite Hc in E0. apply H1 in E0. congruence. }
        destruct C2 as [c0 C2]. destruct (IHp w2 W2 F2) as [A B]. specialize (B b c0 Ha2 C2).
        rewrite fst_finally. pose proof (active_run P ptrue peqb p w2 b W2 Ha2) as Ha3. set (w3 := fst (run p w2)) in *.
        assert (K : inv (fun v => w_ctx v = w_ctx w3) (@ctx_exit P b)).
        { unfold ctx_exit. apply inv_bind; [apply inv_get_ctx|]. intros cx.
          apply inv_bind. { apply inv_upd_circ; [intros; assumption|]. intros x. destruct (c_par x) eqn:E0; cbn; rewrite ?E0; auto. }
          intros _. apply inv_bind; [intros v Hi; exact Hi|]. intros _. apply inv_bind; [apply inv_read|]. intros fs. apply inv_bind.
          { apply inv_iterM; intros. apply inv_reset_variables. intros v v0 s y _ Hi. exact Hi. }
          intros _. apply inv_bind; [intros v Hi; exact Hi|]. intros _. apply inv_lock. intros; assumption. }
        specialize (K w3 eq_refl). cbn in K. intros a0 c1 E0. rewrite K in E0. apply A in E0 as E1.
        assert (a0 = b) by congruence. subst a0. congruence.
      * assert (K : fst (ctx_enter b w1) = w1 \/ FL (fst (ctx_enter b w1))).
        { right. assert (N : w_active w1 = None \/ exists a, w_active w1 = Some a) by (destruct (w_active w1); eauto).
          unfold ctx_enter. destruct (nth_error (w_ctx w1) b) as [cx|] eqn:Ec.
          2: { assert (G : get_ctx b w1 = (w1, Err Undefined)) by (unfold get_ctx; now rewrite Ec). now rewrite (bind_err _ _ _ _ _ _ G). }
          assert (G : get_ctx b w1 = (w1, Ok cx)) by (unfold get_ctx; now rewrite Ec). rewrite (bind_ok _ _ _ _ _ _ G).
          destruct (nth_error (w_circ w1) (fst cx)) as [x|] eqn:Ex.
          2: { now rewrite (bind_err _ _ _ _ _ _ (get_circ_none P _ w1 Ex)). }
          rewrite (bind_ok _ _ _ _ _ _ (get_circ_some P _ w1 x Ex)). destruct (c_locked x); [exact H1|]. rewrite (read_bind P).
          destruct (w_active w1) eqn:Ea; [exact H1|]. unfold mbind at 1. cbv beta iota.
          assert (K : inv FL (let! _ := @qubits P (fst cx) in let! _ := bits (fst cx) in ret tt)).
          { apply inv_ctx_enter_views. intros; assumption. }
          apply K. intros a0 c0 E0. cbn in *. apply H1 in E0. congruence. }
        rewrite E in K. cbn in K. destruct K as [->|K]; [exact H1|exact K].
  - cbn. unfold mbind. pose proof (FL_frozen true CircuitError w H) as H1. pose proof (WF_frozen P true CircuitError w W) as W1.
    destruct (frozen_run w true CircuitError) as [[E _]|[E|(a & c & f & Ha & Hc & E)]]; rewrite E in *; cbn [fst snd] in *; [auto|auto|].
    rewrite fst_finally. destruct (IHp _ W1 H1) as [A B]. split; [now apply FL_frozen|]. intros a' c' Ha' Hc'.
    assert (a' = a) by congruence. subst a'. rewrite Hc in Hc'. injection Hc' as -> ->.
    pose proof (active_run P ptrue peqb p _ a W1 Ha) as Ha2. set (w1 := set_ctx w (set_nth a (c', true) (w_ctx w))) in *.
    assert (C1 : nth_error (w_ctx w1) a = Some (c', true)) by (unfold w1; cbn; eapply set_nth_same; eauto).
    pose proof (kept_run P ptrue peqb p w1) as K. destruct (g_ctx _ _ _ K a _ C1) as [f Hf]. cbn in Hf.
    set (w2 := fst (run p w1)) in *. destruct (frozen_run w2 false AttributeError) as [[_ N]|[E2|(b & d & f' & Hb & Hd & E2)]].
    + congruence.
    + unfold set_frozen in E2. rewrite (read_bind P), Ha2 in E2. unfold mbind, get_ctx in E2. rewrite Hf in E2. discriminate.
    + rewrite E2. cbn. assert (b = a) by congruence. subst b. rewrite Hf in Hd. injection Hd as <- <-. eapply set_nth_same; eauto.
  - cbn. auto.
  - auto.
Qed.

Lemma FL_enter (w w2 : world) c : WF P w -> FL w -> enter P c w = (w2, Ok tt) ->
  WF P w2 /\ FL w2 /\ w_active w = None /\ exists b, w_active w2 = Some b /\ nth_error (w_ctx w2) b = Some (c, false).
Proof.
  intros W H E. unfold enter, mbind in E. destruct (nth_error (w_circ w) c) as [x|] eqn:Ex.
  2: { unfold context in E. now rewrite (bind_err _ _ _ _ _ _ (get_circ_none P c w Ex)) in E. }
  pose proof (FL_context c w H) as H1. pose proof (WF_context P c w W) as W1.
  destruct (context_run P w c x W Ex) as (b & f & B1 & B2 & _ & B4). destruct (context c w) as [w1 r]; cbn [fst snd] in *. subst r.
  pose proof (WF_enter P b w1 W1) as W2. rewrite E in W2. destruct (enter_ok P w1 w2 b E) as (N & Ha & Hc & _).
  split; [exact W2|]. split; [intros a0 c0 E0; rewrite Hc in E0; apply H1 in E0; congruence|].
  split; [destruct B4 as [[_ ->]|[_ ->]]; exact N|]. exists b. split; [exact Ha|]. rewrite Hc. destruct f; [|exact B1]. apply H1 in B1. congruence.
Qed.
Lemma FL_visits p : forall w v : world, WF P w -> FL w -> visits p w v -> FL v.
Proof.
  assert (A : forall q (w v : world), WF P w -> FL w -> v = w \/ v = fst (run q w) -> FL v).
  { intros q w v W H [->| ->]; [exact H|now apply FL_run]. }
  induction p; intros w v W H Hv; match type of Hv with visits ?q _ _ => pose proof (A q w v W H) as A' end; simpl in Hv, A'.
  - tauto.
  - tauto.
  - destruct Hv as [E|[E|[G|G]]]; [tauto|tauto|eauto|]. pose proof (WF_run P ptrue peqb p1 w W) as W1. destruct (FL_run p1 w W H) as [K _].
    destruct (run p1 w) as [w' [u|e]]; [|easy]. cbn in *. eauto.
  - destruct Hv as [E|[E|G]]; [tauto|tauto|]. fold (enter P c) in G. destruct (enter P c w) as [w1 [[]|e1]] eqn:E; [|easy].
    destruct (FL_enter w w1 c W H E) as (W1 & H1 & _). eauto.
  - destruct Hv as [E|[E|G]]; [tauto|tauto|]. pose proof (FL_frozen true CircuitError w H) as K. pose proof (WF_frozen P true CircuitError w W) as W1.
    destruct (set_frozen true CircuitError w) as [w1 [u|e]]; [|easy]. cbn in *. eauto.
  - destruct Hv as [E|[E|G]]; [tauto|tauto|eauto].
  - tauto.
Qed.
Lemma FL_start ks : FL (start P ks). Proof. intros [|a] c H; discriminate. Qed.
Theorem FL_reach ok v : reaches P ptrue peqb ok v -> FL v.
Proof. intros (ks & p & _ & H). eapply FL_visits; [apply WF_start|apply FL_start|exact H]. Qed.

(** Without [freeze] the contexts stay as they are, as long as one is active. *)
Lemma still_run p : forall (w : world) a b cx, no_freeze P p -> WF P w -> w_active w = Some a -> nth_error (w_ctx w) b = Some cx ->
  nth_error (w_ctx (fst (run p w))) b = Some cx.
Proof.
  induction p; intros w a b cx N W Ha H.
  - exact H.
  - cbn. now rewrite call_ctx.
  - cbn. unfold mbind. destruct N as [N1 N2]. specialize (IHp1 w a b cx N1 W Ha H). pose proof (active_run P ptrue peqb p1 w a W Ha) as Ha1.
    pose proof (WF_run P ptrue peqb p1 w W) as W1. destruct (run p1 w) as [w' [u|e]]; cbn in *; [|auto]. eauto.
  - rewrite (busy_with P ptrue peqb w c p a W Ha). destruct (busy_enter P w c a W Ha) as (_ & _ & ->).
    unfold context, mbind, get_circ. destruct (nth_error (w_circ w) c) as [x|]; cbn; [|exact H].
    destruct (c_ctx x); cbn; [exact H|]. now apply nth_app_left.
  - easy.
  - cbn. eauto.
  - exact H.
Qed.
Lemma still_visits p : forall (w v : world) a b cx, no_freeze P p -> WF P w -> w_active w = Some a -> nth_error (w_ctx w) b = Some cx -> visits p w v ->
  nth_error (w_ctx v) b = Some cx.
Proof.
  assert (A : forall q (w v : world) a b cx, no_freeze P q -> WF P w -> w_active w = Some a -> nth_error (w_ctx w) b = Some cx -> v = w \/ v = fst (run q w) ->
    nth_error (w_ctx v) b = Some cx).
  { intros q w v a b cx N W Ha H [->| ->]; [exact H|eapply still_run; eauto]. }
  induction p; intros w v a b cx N W Ha H Hv; match type of Hv with visits ?q _ _ => pose proof (A q w v a b cx N W Ha H) as A' end; simpl in Hv, A', N.
  - tauto.
  - tauto.
  - destruct N as [N1 N2]. destruct Hv as [E|[E|[G|G]]]; [tauto|tauto|eauto|]. pose proof (WF_run P ptrue peqb p1 w W) as W1.
    pose proof (still_run p1 w a b cx N1 W Ha H) as K. pose proof (active_run P ptrue peqb p1 w a W Ha) as Ha1.
    destruct (run p1 w) as [w' [u|e]]; [|easy]. cbn in *. eauto.
  - destruct Hv as [E|[E|G]]; [tauto|tauto|]. fold (enter P c) in G. destruct (busy_enter P w c a W Ha) as (_ & [e He] & _).
    destruct (enter P c w) as [w1 [u|e1]]; [discriminate He|easy].
  - easy.
  - destruct Hv as [E|[E|G]]; [tauto|tauto|eauto].
  - tauto.
Qed.
Lemma recording_visits p (w v : world) a c f : no_freeze P p -> WF P w -> w_active w = Some a -> nth_error (w_ctx w) a = Some (c, f) -> visits p w v ->
  recording P v = if f then None else Some c.
Proof.
  intros N W Ha H Hv. unfold recording. rewrite (active_visits P ptrue peqb p w v a W Ha Hv), (still_visits p w v a a (c, f) N W Ha H Hv). now destruct f.
Qed.

(** ** What is collected depends on the states that are visited *)
Lemma visits_self p (w : world) : visits p w w. Proof. destruct p; simpl; auto. Qed.
Lemma collects_swap (R R' : world -> Prop) p : forall (w : world) l, (forall v, visits p w v -> R v <-> R' v) -> collects P ptrue peqb R p w l -> collects P ptrue peqb R' p w l.
Proof.
  induction p; intros w l H C; pose proof (H w (visits_self _ w)) as H0; simpl in H, C |- *; try exact C.
  - split; [intros r; apply C; tauto|intros r; apply C; tauto].
  - assert (H1 : forall v, visits p1 w v -> R v <-> R' v) by (intros; apply H; tauto).
    destruct (run p1 w) as [w' [u|e]] eqn:E; [|auto]. destruct C as (m & n & -> & A & B). exists m, n. split; [reflexivity|]. split; [auto|].
    apply IHp2; [|exact B]. intros v Hv. apply H. tauto.
  - destruct ((let! a := context c in ctx_enter a) w) as [w1 [u|e]]; [|exact C]. apply IHp; [|exact C]. intros v Hv. apply H. tauto.
  - destruct (set_frozen true CircuitError w) as [w1 [u|e]]; [|exact C]. apply IHp; [|exact C]. intros v Hv. apply H. tauto.
  - apply IHp; [|exact C]. intros v Hv. apply H. tauto.
Qed.
Lemma collects_none p : forall (w : world) l, collects P ptrue peqb (fun _ => False) p w l -> l = [].
Proof.
  induction p; intros w l C; simpl in C; try exact C.
  - tauto.
  - specialize (IHp1 w). destruct (run p1 w) as [w' [u|e]]; [|auto]. destruct C as (m & n & -> & A & B). now rewrite (IHp1 _ A), (IHp2 _ _ B).
  - destruct ((let! a := context c in ctx_enter a) w) as [w1 [u|e]]; eauto.
  - destruct (set_frozen true CircuitError w) as [w1 [u|e]]; eauto.
  - eauto.
Qed.

Lemma recording_dec d (w : world) : recording P w = Some d \/ recording P w <> Some d.
Proof. destruct (recording P w) as [c|]; [|right; discriminate]. destruct (Nat.eq_dec c d) as [->|n]; [auto|right; congruence]. Qed.

(** ** The statements *)
Theorem recorded_in_order d p (w : world) x : WF P w -> nth_error (w_circ w) d = Some x ->
  executes P ptrue peqb (fun _ => no_edit P d) p w ->
  exists x' l, nth_error (w_circ (fst (run p w))) d = Some x' /\ c_ops x' = c_ops x ++ l /\ logs P ptrue peqb d p w l /\
    increasing l (List.length (w_op w)) (List.length (w_op (fst (run p w)))).
Proof.
  intros W E He. destruct (logs_run P ptrue peqb d p (c_ops x) w W He) as (l & (x' & Ex & Ho) & L); [exists x; auto|].
  exists x', l. split; [exact Ex|]. split; [exact Ho|]. split; [exact L|]. eapply collects_new; eauto. apply recording_dec.
Qed.
Theorem recorded_by_with (w w1 : world) c body x : WF P w -> FL w -> enter P c w = (w1, Ok tt) -> no_freeze P body ->
  executes P ptrue peqb (fun _ => no_edit P c) body w1 -> nth_error (w_circ w) c = Some x ->
  exists x' l, nth_error (w_circ (fst (run (With c body) w))) c = Some x' /\ c_ops x' = c_ops x ++ l /\ collects P ptrue peqb (fun _ => True) body w1 l.
Proof.
  intros W H E N He Ex. destruct (FL_enter w w1 c W H E) as (W1 & H1 & _ & b & Ha & Hc).
  assert (H0 : holds P c (c_ops x) w1).
  { unfold enter, mbind in E. pose proof (holds_context P c (c_ops x) c w (ex_intro _ x (conj Ex eq_refl))) as K1.
    destruct (context c w) as [w0 [a|e]]; [|discriminate]. pose proof (holds_enter P c (c_ops x) a w0 K1) as K2. now rewrite E in K2. }
  destruct (logs_run P ptrue peqb c body (c_ops x) w1 W1 He H0) as (l & A & L).
  assert (A' : holds P c (c_ops x ++ l) (fst (run (With c body) w))).
  { rewrite with_unfold. unfold enter, mbind in E. destruct (context c w) as [w0 [a|e]]; [|discriminate]. rewrite E. rewrite fst_finally. now apply holds_exit. }
  destruct A' as (x' & Ex' & Ho). exists x', l. split; [exact Ex'|]. split; [exact Ho|].
  eapply collects_swap; [|exact L]. intros v Hv. cbn. pose proof (recording_visits body w1 v b c false N W1 Ha Hc Hv). tauto.
Qed.
Theorem recorded_nowhere d p (w : world) x : WF P w -> nth_error (w_circ w) d = Some x ->
  executes P ptrue peqb (fun _ => no_edit P d) p w -> (forall v, visits p w v -> recording P v <> Some d) ->
  exists x', nth_error (w_circ (fst (run p w))) d = Some x' /\ c_ops x' = c_ops x.
Proof.
  intros W E He H. destruct (recorded_in_order d p w x W E He) as (x' & l & Ex & Ho & L & _). exists x'. split; [exact Ex|].
  assert (l = []); [|subst l; now rewrite app_nil_r in Ho]. eapply collects_none. eapply collects_swap; [|exact L].
  intros v Hv. cbn. specialize (H v Hv). tauto.
Qed.
Theorem recorded_frozen d body (w : world) x a c f : WF P w -> w_active w = Some a -> nth_error (w_ctx w) a = Some (c, f) -> no_freeze P body ->
  executes P ptrue peqb (fun _ => no_edit P d) (Frozen body) w -> nth_error (w_circ w) d = Some x ->
  exists x', nth_error (w_circ (fst (run (Frozen body) w))) d = Some x' /\ c_ops x' = c_ops x.
Proof.
  intros W Ha Hc N He E. simpl in He |- *. unfold mbind. pose proof (WF_frozen P true CircuitError w W) as W1.
  assert (Ef : set_frozen true CircuitError w = (set_ctx w (set_nth a (c, true) (w_ctx w)), Ok tt)).
  { unfold set_frozen. rewrite (read_bind P), Ha. unfold mbind, get_ctx. now rewrite Hc. }
  rewrite Ef in *. cbn [fst] in W1. set (w1 := set_ctx w (set_nth a (c, true) (w_ctx w))) in *.
  assert (C1 : nth_error (w_ctx w1) a = Some (c, true)) by (unfold w1; cbn; eapply set_nth_same; eauto).
  destruct (recorded_nowhere d body w1 x W1 E He) as (x' & Ex & Ho).
  { intros v Hv. now rewrite (recording_visits body w1 v a c true N W1 Ha C1 Hv). }
  rewrite fst_finally. destruct (holds_frozen P d (c_ops x') false AttributeError (fst (run body w1))) as (x2 & Ex2 & Ho2); [exists x'; auto|].
  exists x2. split; [exact Ex2|congruence].
Qed.
Lemma inactive_run p : forall w : world, no_with P p -> w_active w = None -> w_active (fst (run p w)) = None.
Proof.
  induction p; intros w N H; simpl in N |- *.
  - exact H.
  - now rewrite call_active.
  - destruct N as [N1 N2]. unfold mbind. specialize (IHp1 w N1 H). destruct (run p1 w) as [w' [u|e]]; cbn in *; auto.
  - easy.
  - unfold mbind, set_frozen. rewrite (read_bind P), H. exact H.
  - auto.
  - exact H.
Qed.
Lemma inactive_visits p : forall w v : world, no_with P p -> w_active w = None -> visits p w v -> w_active v = None.
Proof.
  assert (A : forall q (w v : world), no_with P q -> w_active w = None -> v = w \/ v = fst (run q w) -> w_active v = None).
  { intros q w v N H [->| ->]; [exact H|now apply inactive_run]. }
  induction p; intros w v N H Hv; match type of Hv with visits ?q _ _ => pose proof (A q w v N H) as A' end; simpl in Hv, A', N.
  - tauto.
  - tauto.
  - destruct N as [N1 N2]. destruct Hv as [E|[E|[G|G]]]; [tauto|tauto|eauto|]. pose proof (inactive_run p1 w N1 H) as K.
    destruct (run p1 w) as [w' [u|e]]; [|easy]. cbn in *. eauto.
  - easy.
  - destruct Hv as [E|[E|G]]; [tauto|tauto|]. unfold set_frozen in G. rewrite (read_bind P), H in G. easy.
  - destruct Hv as [E|[E|G]]; [tauto|tauto|eauto].
  - tauto.
Qed.
Theorem recorded_outside d p (w : world) x : WF P w -> w_active w = None -> no_with P p -> nth_error (w_circ w) d = Some x ->
  executes P ptrue peqb (fun _ => no_edit P d) p w ->
  exists x', nth_error (w_circ (fst (run p w))) d = Some x' /\ c_ops x' = c_ops x.
Proof.
  intros W Ha N E He. apply (recorded_nowhere d p w x W E He). intros v Hv. unfold recording. now rewrite (inactive_visits p w v N Ha Hv).
Qed.

(** ** Each operation once *)
Definition SD (w : world) : Prop :=
  (forall c x, nth_error (w_circ w) c = Some x -> StronglySorted lt (c_ops x)) /\
  (forall c c' x x' o, nth_error (w_circ w) c = Some x -> nth_error (w_circ w) c' = Some x' -> In o (c_ops x) -> In o (c_ops x') -> c = c').
Definition sub (l m : list nat) : Prop := (StronglySorted lt m -> StronglySorted lt l) /\ incl l m.
Lemma sub_eq l m : l = m -> sub l m. Proof. intros ->. split; [auto|apply incl_refl]. Qed.
Lemma sub_nil l : sub [] l. Proof. split; [constructor|intros x []]. Qed.
Lemma sub_del l : forall i, sub (del_nth i l) l.
Proof.
  induction l as [|x l IH]; intros [|i]; cbn; try (apply sub_eq; reflexivity).
  - split; [now inversion 1|apply incl_tl, incl_refl].
  - destruct (IH i) as [A B]. split.
    + inversion 1; subst. constructor; [auto|]. eapply incl_Forall; eauto.
    + intros y [->|H]; [now left|right; auto].
Qed.
Lemma SD_put (w : world) c x y : nth_error (w_circ w) c = Some x -> sub (c_ops y) (c_ops x) -> SD w -> SD (set_circ w (set_nth c y (w_circ w))).
Proof.
  intros E [H1 H2] [A B]. split; cbn.
  - intros d z Ez. destruct (nth_set_nth_inv (w_circ w) c x y d z E Ez) as [(-> & ->)|(_ & Ez')]; eauto.
  - intros d d' z z' o Ez Ez' Ho Ho'.
    assert (K : forall e u, nth_error (set_nth c y (w_circ w)) e = Some u -> In o (c_ops u) -> exists u', nth_error (w_circ w) e = Some u' /\ In o (c_ops u')).
    { intros e u Eu Hu. destruct (nth_set_nth_inv (w_circ w) c x y e u E Eu) as [(-> & ->)|(_ & Eu')]; eauto. }
    destruct (K d z Ez Ho) as (u & Hu & Ou). destruct (K d' z' Ez' Ho') as (u' & Hu' & Ou'). eauto.
Qed.
Lemma SD_quiet (w : world) c x f : quiet_upd f -> nth_error (w_circ w) c = Some x -> SD w -> SD (set_circ w (set_nth c (f x) (w_circ w))).
Proof. intros Hf E. apply SD_put with x; [exact E|]. apply sub_eq. now destruct (Hf x). Qed.
Lemma SD_new (w : world) par : SD w -> SD (set_circ w (w_circ w ++ [mkCirc [] (mkSide [] None) (mkSide [] None) false None par [] false])).
Proof.
  set (y := mkCirc [] _ _ _ _ _ _ _). intros [A B].
  assert (K : forall d z, nth_error (w_circ w ++ [y]) d = Some z -> nth_error (w_circ w) d = Some z \/ z = y).
  { intros d z H. destruct (Nat.lt_ge_cases d (List.length (w_circ w))) as [L|L].
    - left. now rewrite nth_error_app1 in H.
    - rewrite nth_error_app2 in H by exact L. destruct (d - List.length (w_circ w)) as [|[|n]]; cbn in H; try discriminate. right. congruence. }
  split; cbn.
  - intros d z H. destruct (K d z H) as [H'| ->]; [eauto|constructor].
  - intros d d' z z' o H H' Ho Ho'. destruct (K d z H) as [G| ->]; [|destruct Ho]. destruct (K d' z' H') as [G'| ->]; [|destruct Ho']. eauto.
Qed.
Lemma SD_same (w w' : world) : w_circ w' = w_circ w -> SD w -> SD w'.
Proof. intros H [A B]. split; rewrite H; auto. Qed.
Lemma SD_quiet_call x : building P x = false -> no_append P x -> inv SD (do_call x).
Proof.
  intros Hb Hn.
  assert (I1 := SD_quiet). assert (I2 := SD_new).
  destruct x; try discriminate Hb; cbn [WorldModel.do_call]; simpl in Hn; try contradiction; try apply inv_unit_of;
    try (first [apply inv_new_circuit|apply inv_new_qubit|apply inv_new_bit|apply inv_new_var|apply inv_add_qubit|apply inv_add_bit|apply inv_add_qregister|apply inv_add_cregister
      |apply inv_qreg_add|apply inv_creg_add|apply inv_qreg_freeze|apply inv_creg_freeze|apply inv_get_qubit|apply inv_get_bit
      |apply inv_find_qubit|apply inv_find_bit|apply inv_qubits|apply inv_bits|apply inv_bit_set|apply inv_bit_reset
      |apply inv_set_qubits|apply inv_conditional|apply inv_store|apply inv_op_eval|apply inv_cls_num_qubits|apply inv_eval_circuit]; eauto; intros; eapply SD_same; eauto; reflexivity).
  - apply inv_lock. intros w d0 x E. apply SD_put with x; auto. now apply sub_eq.
  - intros w H. unfold unlock. destruct (nth_error (w_circ w) c) as [x|] eqn:E.
    + rewrite (upd_circ_run P c _ w x E). cbn. eapply SD_put; eauto. apply sub_eq. now destruct (c_par x).
    + unfold upd_circ. now rewrite (bind_err _ _ _ _ _ _ (get_circ_none P c w E)).
  - intros w H. unfold reset. unfold mbind at 1. destruct (nth_error (w_circ w) c) as [x|] eqn:E.
    2: { unfold upd_circ. now rewrite (bind_err _ _ _ _ _ _ (get_circ_none P c w E)). }
    rewrite (upd_circ_run P c _ w x E).
    match goal with |- SD (fst (?m ?u)) => assert (K : inv SD m); [|apply K] end.
    2: { eapply SD_put; eauto. apply sub_nil. }
    apply inv_bind.
    + destruct keep.
      * apply inv_bind; [apply inv_bits, I1|]. intros r. apply inv_bind; [apply inv_lift|]. intros l.
        apply inv_iterM. intros v. apply inv_item_reset. intros u b l0 y y' _ Hu. exact Hu.
      * apply inv_upd_circ; [apply I1|]. intros y. auto.
    + intros _ u Hu. unfold unlock. destruct (nth_error (w_circ u) c) as [y|] eqn:Ey.
      * rewrite (upd_circ_run P c _ u y Ey). cbn. eapply SD_put; eauto. apply sub_eq. now destruct (c_par y).
      * unfold upd_circ. now rewrite (bind_err _ _ _ _ _ _ (get_circ_none P c u Ey)).
  - apply inv_var_put. intros w v0 s y p _ Hi. exact Hi.
  - intros w Hi. unfold remove_op. destruct (nth_error (w_circ w) c) as [x|] eqn:E.
    2: { now rewrite (bind_err _ _ _ _ _ _ (get_circ_none P c w E)). }
    rewrite (bind_ok _ _ _ _ _ _ (get_circ_some P c w x E)). unfold mbind.
    pose proof (inv_index_of P ptrue peqb (fun u => u = w) (c_ops x) o 0 w eq_refl) as K.
    destruct (index_of ptrue peqb (c_ops x) o 0 w) as [u [i|e]]; cbn in K; subst u; [|exact Hi].
    rewrite (upd_circ_run P c _ w x E). cbn. eapply SD_put; eauto. apply sub_del.
  - apply inv_get_param.
    + intros w s Hi. exact Hi.
    + intros w d0 x vs E _ Hi. eapply SD_put; eauto. now apply sub_eq.
  - apply inv_reset_variables. intros w v0 s y _ Hi. exact Hi.
Qed.
(** The calls that build make no circuits. *)
Lemma builds_len x (w : world) : building P x = true -> WF P w -> List.length (w_circ (fst (do_call x w))) = List.length (w_circ w).
Proof.
  intros Hb W. set (n := List.length (w_circ w)).
  assert (K : inv (fun v => List.length (w_circ v) = n) (do_call x)); [|now apply K].
  destruct x; try discriminate Hb; cbn [WorldModel.do_call]; try apply inv_unit_of;
   first [apply inv_construct|apply inv_call_op|apply inv_call_plain|apply inv_call_parametric]; intros; cbn; rewrite ?set_nth_length; auto.
Qed.
Lemma no_append_edit d x : building P x = true -> no_edit P d x. Proof. destruct x; intros H; try discriminate H; exact I. Qed.
Lemma SD_call x (w : world) : no_append P x -> WF P w -> SD w -> SD (fst (do_call x w)).
Proof.
  intros Hn W H. destruct (building P x) eqn:Hb; [|now apply SD_quiet_call].
  assert (K : forall d x', nth_error (w_circ (fst (do_call x w))) d = Some x' -> exists y l, nth_error (w_circ w) d = Some y /\ c_ops x' = c_ops y ++ l /\
     increasing l (List.length (w_op w)) (List.length (w_op (fst (do_call x w)))) /\ (recording P w <> Some d -> l = [])).
  { intros d x' E. destruct (nth_error (w_circ w) d) as [y|] eqn:Ey.
    - destruct (call_logs P ptrue peqb d (c_ops y) x w W (no_append_edit d x Hb)) as (l & (x1 & E1 & Ho) & C & N); [exists y; auto|].
      exists y, l. split; [reflexivity|]. split; [congruence|]. split; [|exact N].
      destruct (recording_dec d w) as [r|r]; [apply constructs_new; auto|rewrite (N r); apply increasing_nil].
    - exfalso. apply nth_error_None in Ey. rewrite <- (builds_len x w Hb W) in Ey. apply nth_error_None in Ey. congruence. }
  destruct H as [A B]. split.
  - intros d x' E. destruct (K d x' E) as (y & l & Ey & Ho & I & _). rewrite Ho. 
    apply (increasing_app (c_ops y) l 0 (List.length (w_op w)) (List.length (w_op (fst (do_call x w))))); [lia| | |exact I].
    + apply kept_len, (kept_call P ptrue peqb w x w), kept_refl.
    + split; [eauto|]. apply Forall_forall. intros o Ho'. pose proof (wf_ops _ _ W d y o Ey Ho'). lia.
  - intros d d' x1 x2 o E1 E2 H1 H2. destruct (K d x1 E1) as (y1 & l1 & Ey1 & Ho1 & [_ I1] & N1). destruct (K d' x2 E2) as (y2 & l2 & Ey2 & Ho2 & [_ I2] & N2).
    rewrite Ho1 in H1. rewrite Ho2 in H2. rewrite Forall_forall in I1, I2.
    apply in_app_or in H1. apply in_app_or in H2. destruct H1 as [H1|H1]; destruct H2 as [H2|H2].
    + eauto.
    + apply I2 in H2. pose proof (wf_ops _ _ W d y1 o Ey1 H1). lia.
    + apply I1 in H1. pose proof (wf_ops _ _ W d' y2 o Ey2 H2). lia.
    + destruct (recording_dec d w) as [r|r]; [|rewrite (N1 r) in H1; destruct H1].
      destruct (recording_dec d' w) as [r'|r']; [congruence|rewrite (N2 r') in H2; destruct H2].
Qed.
Lemma SD_context c : inv SD (@context P c).
Proof.
  intros w Hi. unfold context, mbind, get_circ. destruct (nth_error (w_circ w) c) as [x|] eqn:E; cbn; [|exact Hi].
  destruct (c_ctx x) eqn:Ec; cbn; [exact Hi|]. apply (SD_put (set_ctx w _) c x); auto. now apply sub_eq.
Qed.
Lemma SD_enter a : inv SD (@ctx_enter P a).
Proof.
  unfold ctx_enter. apply inv_bind; [apply inv_get_ctx|]. intros cx. apply inv_bind; [apply inv_get_circ|]. intros x.
  destruct (c_locked x); [apply inv_raise|]. apply inv_bind; [apply inv_read|]. intros [b|]; [apply inv_raise|].
  apply inv_bind; [intros w Hi; exact Hi|]. intros _. apply inv_ctx_enter_views, SD_quiet.
Qed.
Lemma SD_exit a : inv SD (@ctx_exit P a).
Proof.
  unfold ctx_exit. apply inv_bind; [apply inv_get_ctx|]. intros cx.
  apply inv_bind. { apply inv_upd_circ; [apply SD_quiet|]. intros x. destruct (c_par x) eqn:E; cbn; rewrite ?E; auto. }
  intros _. apply inv_bind; [intros w Hi; exact Hi|].
  intros _. apply inv_bind; [apply inv_read|]. intros fs. apply inv_bind.
  { apply inv_iterM; intros. apply inv_reset_variables. intros w v0 s y _ Hi. exact Hi. }
  intros _. apply inv_bind; [intros w Hi; exact Hi|].
  intros _. apply inv_lock. intros w c x E Hi. eapply SD_put; eauto. now apply sub_eq.
Qed.
Lemma SD_frozen b e : inv SD (@set_frozen P b e).
Proof.
  unfold set_frozen. apply inv_bind; [apply inv_read|]. intros [a|]; [|apply inv_raise].
  intros w Hi. unfold mbind, get_ctx. destruct (nth_error (w_ctx w) a); cbn; exact Hi.
Qed.
Theorem SD_reach v : reaches P ptrue peqb (fun _ => no_append P) v -> SD v.
Proof.
  intros (ks & p & He & Hv). 
  assert (K : WF P v /\ SD v); [|apply K].
  eapply (visits_inv P ptrue peqb (fun w => WF P w /\ SD w) (fun _ => no_append P)); eauto.
  - intros w x Hx [W H]. split; [now apply WF_call|now apply SD_call].
  - intros c. apply inv_and; [apply WF_context|apply SD_context].
  - intros c. apply inv_and; [apply WF_enter|apply SD_enter].
  - intros c. apply inv_and; [apply WF_exit|apply SD_exit].
  - intros b e. apply inv_and; [apply WF_frozen|apply SD_frozen].
  - split; [apply WF_start|]. split; intros [|c]; discriminate.
Qed.
End Trace2.

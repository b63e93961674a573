(** What appending and constructing an operation does, exactly. *)
From Coq Require Import List ZArith String Bool Arith Lia.
From Verif Require Import Py RegisterModel WorldModel WorldSpec WorldSpec3 WorldInv WorldInv2 WorldInv5 WorldWf WorldWf2 WorldWf3 WorldCtx3 WorldOps.
Import ListNotations.
Local Open Scope nat_scope.

Section Build.
Variable P : Type.
Variable ptrue : P -> bool.
Variable peqb : P -> P -> bool.
Notation world := (world P).
Notation M := (M P).

Definition view_q (x : circ) (v : option register) : circ := with_q x (mkSide (s_regs (c_q x)) v).
Lemma view_q_self x : view_q x (s_cache (c_q x)) = x.
Proof. destruct x as [o [r v] b l c p vs f]. reflexivity. Qed.
Lemma set_circ_self (w : world) c x : nth_error (w_circ w) c = Some x -> set_circ w (set_nth c x (w_circ w)) = w.
Proof. intros E. rewrite set_nth_id by exact E. now destruct w. Qed.
Lemma set_op_self (w : world) o y : nth_error (w_op w) o = Some y -> set_op w (set_nth o y (w_op w)) = w.
Proof. intros E. rewrite set_nth_id by exact E. now destruct w. Qed.

(** A cached view is as before, or the registers one after the other. *)
Definition viewok (bs : list (label * option bool)) (s : side) (v : option register) : Prop :=
  v = s_cache s \/ s_cache s = None /\ exists r, concat_regs bs s = Ok r /\ v = Some r.
Lemma viewok_trans bs s v v' : viewok bs s v -> viewok bs (mkSide (s_regs s) v) v' -> viewok bs s v'.
Proof.
  intros H [->|(Hn & r & Hr & ->)]; [exact H|]. destruct H as [H|(Hn' & r' & Hr' & H)]; cbn in *.
  - subst v. right. split; [exact Hn|]. exists r. split; [|reflexivity]. now destruct s.
  - subst v. discriminate.
Qed.
Lemma qubits_result c (w w' : world) x x' : nth_error (w_circ w) c = Some x -> nth_error (w_circ w') c = Some x' ->
  s_regs (c_q x') = s_regs (c_q x) -> viewok (w_bit w) (c_q x) (s_cache (c_q x')) -> w_bit w' = w_bit w -> snd (qubits c w') = snd (qubits c w).
Proof.
  intros E E' Hr Hv Hb. unfold qubits, mbind, get_circ, lift, read. rewrite E, E'. cbn [the ret].
  assert (C : s_cache (c_q x') = s_cache (c_q x) -> c_q x' = c_q x) by (intros H; destruct (c_q x), (c_q x'); cbn in *; congruence).
  destruct Hv as [Hv|(Hn & r & H & Hv)].
  - rewrite (C Hv). destruct (s_cache (c_q x)); [reflexivity|]. cbv beta iota. rewrite Hb. destruct (concat_regs (w_bit w) (c_q x)); reflexivity.
  - rewrite Hv, Hn. cbv beta iota. now rewrite H.
Qed.
Lemma bits_result c (w w' : world) x x' : nth_error (w_circ w) c = Some x -> nth_error (w_circ w') c = Some x' ->
  s_regs (c_b x') = s_regs (c_b x) -> viewok (w_bit w) (c_b x) (s_cache (c_b x')) -> w_bit w' = w_bit w -> snd (bits c w') = snd (bits c w).
Proof.
  intros E E' Hr Hv Hb. unfold bits, mbind, get_circ, lift, read. rewrite E, E'. cbn [the ret].
  assert (C : s_cache (c_b x') = s_cache (c_b x) -> c_b x' = c_b x) by (intros H; destruct (c_b x), (c_b x'); cbn in *; congruence).
  destruct Hv as [Hv|(Hn & r & H & Hv)].
  - rewrite (C Hv). destruct (s_cache (c_b x)); [reflexivity|]. cbv beta iota. rewrite Hb. destruct (concat_regs (w_bit w) (c_b x)); reflexivity.
  - rewrite Hv, Hn. cbv beta iota. now rewrite H.
Qed.

(** Reading [qubits] changes at most the cached view, and a second time nothing. *)
Lemma qubits_shape c (w : world) x : nth_error (w_circ w) c = Some x ->
  exists v, fst (qubits c w) = set_circ w (set_nth c (view_q x v) (w_circ w)) /\
    (forall r, snd (qubits c w) = Ok r -> v = Some r) /\ viewok (w_bit w) (c_q x) v.
Proof.
  intros E. unfold qubits. rewrite (bind_ok _ _ _ _ _ _ (get_circ_some P c w x E)). destruct (s_cache (c_q x)) as [r|] eqn:Ec.
  - exists (Some r). cbn. rewrite <- Ec, view_q_self. split; [now rewrite set_circ_self|]. split; [intros r' [= <-]; auto|]. rewrite Ec. now left.
  - unfold read, lift, mbind. destruct (concat_regs (w_bit w) (c_q x)) as [r|e] eqn:Er; cbn.
    + exists (Some r). split; [reflexivity|]. split; [now intros r' [= <-]|]. right. eauto.
    + exists None. rewrite <- Ec, view_q_self. split; [now rewrite set_circ_self|]. split; [discriminate|]. rewrite Ec. now left.
Qed.
Lemma qubits_again c (w : world) x r : nth_error (w_circ w) c = Some x -> s_cache (c_q x) = Some r -> qubits c w = (w, Ok r).
Proof. intros E Ec. unfold qubits. now rewrite (bind_ok _ _ _ _ _ _ (get_circ_some P c w x E)), Ec. Qed.

Lemma qubits_cached (w w' : world) c x x' : nth_error (w_circ w) c = Some x -> nth_error (w_circ w') c = Some x' ->
  c_q x' = c_q x -> w_bit w' = w_bit w -> snd (qubits c w') = snd (qubits c w).
Proof.
  intros E E' Hq Hb. unfold qubits, mbind, get_circ, lift, read. rewrite E, E'. cbn [the ret]. rewrite Hq.
  destruct (s_cache (c_q x)); [reflexivity|]. cbv beta iota. rewrite Hb. destruct (concat_regs (w_bit w) (c_q x)); reflexivity.
Qed.

(** The loop over the qubits of an operation. *)
Lemma checks_run c l : forall (w : world) x, nth_error (w_circ w) c = Some x ->
  exists v, fst (iterM (@check_own P c) l w) = set_circ w (set_nth c (view_q x v) (w_circ w)) /\
    (forall u, snd (iterM (@check_own P c) l w) = Ok u ->
       forall q, In q l -> exists r, snd (qubits c w) = Ok r /\ count (core r) q = Ok true) /\ viewok (w_bit w) (c_q x) v.
Proof.
  induction l as [|q l IH]; intros w x E.
  - exists (s_cache (c_q x)). cbn. rewrite view_q_self. split; [now rewrite set_circ_self|]. split; [intros u _ q []|now left].
  - destruct (qubits_shape c w x E) as (v & H1 & H2 & H3).
    destruct (qubits c w) as [w1 [r|e]] eqn:Eq; cbn [fst snd] in *.
    2: { assert (C : iterM (check_own c) (q :: l) w = (w1, Err e)) by (cbn [iterM]; unfold check_own, mbind; now rewrite Eq).
         rewrite C. exists v. split; [exact H1|split; [discriminate|exact H3]]. }
    specialize (H2 r eq_refl). subst v.
    destruct (count (core r) q) as [b|e] eqn:Ec.
    2: { assert (C : iterM (check_own c) (q :: l) w = (w1, Err e)) by (cbn [iterM]; unfold check_own, mbind, lift; now rewrite Eq, Ec).
         rewrite C. exists (Some r). split; [exact H1|split; [discriminate|exact H3]]. }
    destruct b.
    2: { assert (C : iterM (check_own c) (q :: l) w = (w1, Err ValueError)) by (cbn [iterM]; unfold check_own, mbind, lift; now rewrite Eq, Ec).
         rewrite C. exists (Some r). split; [exact H1|split; [discriminate|exact H3]]. }
    assert (C : iterM (check_own c) (q :: l) w = iterM (check_own c) l w1).
    { cbn [iterM]. unfold check_own at 1, mbind, lift. now rewrite Eq, Ec. }
    rewrite C.
    assert (E1 : nth_error (w_circ w1) c = Some (view_q x (Some r))) by (rewrite H1; cbn; eapply set_nth_same; eauto).
    destruct (IH w1 (view_q x (Some r)) E1) as (v & K1 & K2 & K3'). exists v. split; [|split].
    + rewrite K1, H1. cbn. rewrite set_nth_set_nth. destruct w; reflexivity.
    + intros u Hu q' [->|Hq]; [eauto|]. destruct (K2 u Hu q' Hq) as (r' & K3 & K4). exists r'. split; [|exact K4].
      rewrite (qubits_again c w1 _ r E1 eq_refl) in K3. exact K3.
    + replace (w_bit w1) with (w_bit w) in K3' by now rewrite H1. eapply viewok_trans; [exact H3|exact K3'].
Qed.

(** Evaluating the parameters. *)
Lemma eval_loop_ok (w : world) ps : forall i, snd (eval_loop ptrue w i None ps) = Ok tt ->
  Forall2 (stands_for P ptrue w) ps (fst (eval_loop ptrue w i None ps)).
Proof.
  induction ps as [|p ps IH]; intros i H; [constructor|]. simpl in *. destruct p as [z|v].
  - specialize (IH (S i)). destruct (eval_loop ptrue w (S i) None ps) as [r o]. cbn in *. constructor; [reflexivity|auto].
  - unfold var_value in *. destruct (nth_error (w_var w) v) as [[s [z|]]|] eqn:E; try discriminate H.
    destruct (ptrue z) eqn:T; [|discriminate H]. specialize (IH (S i)).
    destruct (eval_loop ptrue w (S i) None ps) as [r o]. cbn in *. constructor; [|auto]. exists s, z. auto.
Qed.

Lemma parametric_takes x : parametric x = true <-> takes_variables x.
Proof.
  unfold parametric, takes_variables. destruct (c_par x), (c_vars x) as [|v vs]; cbn; split; intros H; try discriminate H; try (destruct H; congruence); auto.
  split; [reflexivity|discriminate].
Qed.

(** ** Appending *)
Lemma append_run (w : world) c x o y k : nth_error (w_circ w) c = Some x -> nth_error (w_op w) o = Some y ->
  nth_error (w_cls w) (o_cls y) = Some k ->
  exists v ps l, fst (append_op ptrue c o w) =
      set_circ (set_op w (set_nth o (with_oparams y ps) (w_op w))) (set_nth c (with_ops (view_q x v) (c_ops x ++ l)) (w_circ w)) /\
    viewok (w_bit w) (c_q x) v /\
    match snd (append_op ptrue c o w) with
    | Ok _ => l = [o] /\ c_locked x = false /\
        (forall q, In q (oqubits y) -> exists r, snd (qubits c w) = Ok r /\ count (core r) q = Ok true) /\
        (if negb (parametric x) && has_params (k_kind k) then Forall2 (stands_for P ptrue w) (o_params y) ps else ps = o_params y)
    | Err _ => l = []
    end.
Proof.
  intros E Eo Ek. unfold append_op. rewrite (bind_ok _ _ _ _ _ _ (get_circ_some P c w x E)).
  assert (S1 : with_ops (view_q x (s_cache (c_q x))) (c_ops x ++ []) = x) by (rewrite view_q_self, app_nil_r; now destruct x).
  assert (S2 : with_oparams y (o_params y) = y) by now destruct y.
  assert (Sid : w = set_circ (set_op w (set_nth o (with_oparams y (o_params y)) (w_op w))) (set_nth c (with_ops (view_q x (s_cache (c_q x))) (c_ops x ++ [])) (w_circ w))).
  { rewrite S1, S2, set_op_self by exact Eo. now rewrite set_circ_self. }
  destruct (c_locked x) eqn:L; [exists (s_cache (c_q x)), (o_params y), []; cbn [fst snd raise]; split; [exact Sid|split; [now left|reflexivity]]|].
  assert (G1 : get_op o w = (w, Ok y)) by (unfold get_op; now rewrite Eo).
  assert (G2 : get_cls (o_cls y) w = (w, Ok k)) by (unfold get_cls; now rewrite Ek).
  rewrite (bind_ok _ _ _ _ _ _ G1), (bind_ok _ _ _ _ _ _ G2).
  assert (R : exists ps, fst (when (negb (parametric x) && has_params (k_kind k)) (op_eval ptrue o None) w) = set_op w (set_nth o (with_oparams y ps) (w_op w)) /\
    (snd (when (negb (parametric x) && has_params (k_kind k)) (op_eval ptrue o None) w) = Ok tt ->
       if negb (parametric x) && has_params (k_kind k) then Forall2 (stands_for P ptrue w) (o_params y) ps else ps = o_params y)).
  { destruct (negb (parametric x) && has_params (k_kind k)); cbn [when].
    - unfold op_eval. rewrite (bind_ok _ _ _ _ _ _ G1). unfold put_op, lift, read, mbind. cbn [fst snd].
      eexists. split; [reflexivity|]. apply eval_loop_ok.
    - exists (o_params y). cbn. rewrite S2, set_op_self by exact Eo. auto. }
  destruct R as (ps & R1 & R2).
  destruct (when _ _ w) as [w1 [u|e]] eqn:Ew; cbn [fst snd] in *;
    [rewrite (bind_ok _ _ _ _ _ _ Ew)|rewrite (bind_err _ _ _ _ _ _ Ew); cbn [fst snd]].
  2: { exists (s_cache (c_q x)), ps, []. split; [|split; [now left|reflexivity]]. rewrite S1, R1. symmetry. exact (set_circ_self (set_op w _) c x E). }
  assert (E1 : nth_error (w_circ w1) c = Some x) by (rewrite R1; exact E).
  destruct (checks_run c (oqubits y) w1 x E1) as (v & K1 & K2 & Kv). replace (w_bit w1) with (w_bit w) in Kv by now rewrite R1.
  destruct (iterM (check_own c) (oqubits y) w1) as [w2 [u'|e]] eqn:Ei; cbn [fst snd] in *;
    [rewrite (bind_ok _ _ _ _ _ _ Ei)|rewrite (bind_err _ _ _ _ _ _ Ei); cbn [fst snd]].
  2: { exists v, ps, []. split; [|split; [exact Kv|reflexivity]]. rewrite K1, R1. cbn. rewrite app_nil_r. now destruct x. }
  assert (E2 : nth_error (w_circ w2) c = Some (view_q x v)) by (rewrite K1; cbn; eapply set_nth_same; eauto).
  rewrite (upd_circ_run P c _ w2 _ E2). cbn [fst snd]. exists v, ps, [o]. split.
  { rewrite K1, R1. cbn. rewrite set_nth_set_nth. destruct w; reflexivity. }
  split; [exact Kv|]. split; [reflexivity|]. split; [reflexivity|]. destruct u. split; [|exact (R2 eq_refl)].
  intros q Hq. destruct (K2 u' eq_refl q Hq) as (r & K3 & K4). exists r. split; [|exact K4].
  rewrite (qubits_cached w w1 c x x E E1 eq_refl ltac:(now rewrite R1)) in K3. exact K3.
Qed.

(** ** The effect on everything but the operation objects *)
Definition recs (w : world) (d : nat) (l : list nat) : list nat :=
  match recording P w with Some c => if Nat.eqb c d then l else [] | None => [] end.
Record effect (w w' : world) (l : list nat) : Prop := {
  ef_cls : forall k x, nth_error (w_cls w) k = Some x -> exists x', nth_error (w_cls w') k = Some x' /\ same_cls x x';
  ef_len : List.length (w_circ w') = List.length (w_circ w);
  ef_circ : forall d x, nth_error (w_circ w) d = Some x -> exists x', nth_error (w_circ w') d = Some x' /\ recorded x x' (recs w d l);
  ef_qubit : w_qubit w' = w_qubit w;
  ef_bit : w_bit w' = w_bit w;
  ef_ctx : w_ctx w' = w_ctx w;
  ef_active : w_active w' = w_active w;
  ef_var : w_var w' = w_var w;
  ef_exit : w_exit w' = w_exit w;
  ef_q : forall d, snd (qubits d w') = snd (qubits d w);
  ef_b : forall d, snd (bits d w') = snd (bits d w)
}.
Lemma recorded_refl x : recorded x x [].
Proof. exists (s_cache (c_q x)), (s_cache (c_b x)). rewrite app_nil_r. now destruct x as [o [r v] [r' v'] lk c p vs f]. Qed.
Lemma recorded_trans x y z l m : recorded x y l -> recorded y z m -> recorded x z (l ++ m).
Proof. intros (v & v' & ->) (u & u' & ->). exists u, u'. cbn. now rewrite app_assoc. Qed.
Lemma recs_same (w w' : world) d l : w_active w' = w_active w -> w_ctx w' = w_ctx w -> recs w' d l = recs w d l.
Proof. intros H1 H2. unfold recs, recording. now rewrite H1, H2. Qed.
Lemma recs_app (w : world) d l m : recs w d (l ++ m) = recs w d l ++ recs w d m.
Proof. unfold recs. destruct (recording P w) as [c|]; [|reflexivity]. now destruct (Nat.eqb c d). Qed.
Lemma recs_nil (w : world) d : recs w d [] = [].
Proof. unfold recs. destruct (recording P w) as [c|]; [|reflexivity]. now destruct (Nat.eqb c d). Qed.
Lemma effect_refl w : effect w w [].
Proof.
  constructor; auto; intros.
  - exists x. auto using same_cls_refl.
  - exists x. split; [auto|]. rewrite recs_nil. apply recorded_refl.
Qed.
Lemma effect_trans a b c l m : effect a b l -> effect b c m -> effect a c (l ++ m).
Proof.
  intros [A1 A2 A3 A4 A5 A6 A7 A8 A9 Aq Ab] [B1 B2 B3 B4 B5 B6 B7 B8 B9 Bq Bb]. constructor; try congruence; intros.
  - destruct (A1 _ _ H) as (x' & H1 & H2). destruct (B1 _ _ H1) as (x'' & H3 & H4). exists x''. split; [auto|].
    eapply same_cls_trans; eauto.
  - destruct (A3 _ _ H) as (x' & H1 & H2). destruct (B3 _ _ H1) as (x'' & H3 & H4). exists x''. split; [auto|].
    rewrite recs_app. rewrite (recs_same a b) in H4 by auto. eapply recorded_trans; eauto.
Qed.
Lemma qubits_frame_op d (w w' : world) : w_circ w' = w_circ w -> w_bit w' = w_bit w -> snd (qubits d w') = snd (qubits d w) /\ snd (bits d w') = snd (bits d w).
Proof.
  intros H1 H2. destruct (nth_error (w_circ w) d) as [x|] eqn:E.
  - split; [eapply qubits_result|eapply bits_result]; eauto; try (now rewrite H1); now left.
  - assert (E' : nth_error (w_circ w') d = None) by now rewrite H1. unfold qubits, bits, mbind, get_circ. now rewrite E, E'.
Qed.
Lemma effect_op w l : effect w (set_op w l) [].
Proof. destruct (effect_refl w). constructor; auto; intros d; now apply qubits_frame_op. Qed.
Lemma effect_nil a b c : effect a b [] -> effect b c [] -> effect a c [].
Proof. exact (effect_trans a b c [] []). Qed.
Lemma effect_check k qs (w : world) : effect w (fst (check_qubits k qs w)) [] /\ w_op (fst (check_qubits k qs w)) = w_op w /\ w_circ (fst (check_qubits k qs w)) = w_circ w.
Proof.
  assert (H : inv P (fun v => effect w v [] /\ w_op v = w_op w /\ w_circ v = w_circ w) (@check_qubits P k qs)); [|apply H; split; [apply effect_refl|auto]].
  apply inv_check_qubits. intros v j x a b E K N A B [He Ho]. split; [|exact Ho]. apply (effect_nil w v); [exact He|].
  constructor; auto; cbn; intros.
  - destruct (nth_set_nth (w_cls v) j x (mkCls (k_name x) (k_kind x) (Some (S a + S b)) (k_ncontrol x) (k_ntarget x) (k_nparams x)) k0 x0 E H) as [(-> & -> & H3)|(n & H3)].
    + eexists. split; [exact H3|]. repeat split. right. split; [exact K|]. split; [exact N|]. exists a, b. auto.
    + exists x0. auto using same_cls_refl.
  - exists x0. split; [auto|]. rewrite recs_nil. apply recorded_refl.
  - now apply qubits_frame_op.
  - now apply qubits_frame_op.
Qed.

(** ** Construction *)
(** The active context and its circuit exist. *)
Definition sound (w : world) : Prop :=
  forall a, w_active w = Some a -> exists c b x, nth_error (w_ctx w) a = Some (c, b) /\ nth_error (w_circ w) c = Some x.
Lemma WF_sound w : WF P w -> sound w.
Proof.
  intros W a Ha. destruct (nth_error (w_ctx w) a) as [[c b]|] eqn:E.
  2: { apply nth_error_None in E. pose proof (wf_act _ _ W a Ha). lia. }
  destruct (nth_error (w_circ w) c) as [x|] eqn:Ec; [exists c, b, x; auto|].
  apply nth_error_None in Ec. pose proof (wf_ctx _ _ W a _ E). cbn in *. lia.
Qed.
Lemma effect_sound w w' l : effect w w' l -> sound w -> sound w'.
Proof.
  intros E S a Ha. rewrite (ef_active _ _ _ E) in Ha. destruct (S a Ha) as (c & b & x & H1 & H2). 
  destruct (ef_circ _ _ _ E c x H2) as (x' & H3 & _). exists c, b, x'. rewrite (ef_ctx _ _ _ E). auto.
Qed.

(** The parameters of an operation that is recorded in a circuit without variables are evaluated. *)
Definition resolved (w : world) (k : kind) (ps ps' : list (param P)) : Prop :=
  match recording P w with
  | Some c => exists x, nth_error (w_circ w) c = Some x /\
      (if negb (parametric x) && has_params k then Forall2 (stands_for P ptrue w) ps ps' else ps' = ps)
  | None => ps' = ps
  end.
(** The qubits of an operation that is recorded were found in the circuit. *)
Definition own_qubits (w : world) (qs : list item) : Prop :=
  forall c, recording P w = Some c -> forall q, In q qs -> exists r, snd (qubits c w) = Ok r /\ count (core r) q = Ok true.


Lemma effect_free (w w' : world) l m : recording P w = None -> effect w w' l -> effect w w' m.
Proof.
  intros R E. destruct E. constructor; auto. intros d x H. destruct (ef_circ0 d x H) as (x' & H1 & H2). exists x'. split; [auto|].
  unfold recs in *. rewrite R in *. exact H2.
Qed.
Lemma set_nth_self {A} (l : list A) o y : nth_error l o = Some y -> l = set_nth o y l.
Proof. intros H. symmetry. now apply set_nth_id. Qed.

Definition outcome (w : world) (o : nat) (y y' : opobj P) (x : cls) (r : res unit) (l : list nat) : Prop :=
  match r with
  | Ok _ => l = [o] /\ o_qubits y' = o_qubits y /\ o_numq y' = o_numq y /\ resolved w (k_kind x) (o_params y) (o_params y') /\ own_qubits w (oqubits y) /\
      o_control y' = o_control y /\ o_target y' = o_target y /\ o_bits y' = o_bits y /\ o_cond y' = o_cond y /\
      (forall c z, recording P w = Some c -> nth_error (w_circ w) c = Some z -> c_locked z = false)
  | Err _ => l = []
  end.
(** The last lines of [Operation.__init__]. *)
Lemma record_spec (w : world) o y x : sound w -> nth_error (w_op w) o = Some y -> nth_error (w_cls w) (o_cls y) = Some x ->
  let r := (match w_active w with
            | None => ret tt
            | Some a => let! cx := get_ctx a in if snd cx then ret tt else append_op ptrue (fst cx) o
            end) w in
  exists y' l, effect w (fst r) l /\ w_op (fst r) = set_nth o y' (w_op w) /\ o_cls y' = o_cls y /\ outcome w o y y' x (snd r) l.
Proof.
  intros S Eo Ek. cbv zeta.
  assert (N : recording P w = None -> exists y' l, effect w w l /\ w_op w = set_nth o y' (w_op w) /\ o_cls y' = o_cls y /\ outcome w o y y' x (Ok tt) l).
  { intros R. exists y, [o]. split; [apply (effect_free w w []); [exact R|apply effect_refl]|]. split; [now apply set_nth_self|].
    split; [reflexivity|]. unfold outcome, resolved, own_qubits. rewrite R. repeat (split; [reflexivity|]). split; [discriminate|].
    repeat (split; [reflexivity|]). discriminate. }
  destruct (w_active w) as [a|] eqn:Ha.
  2: { apply N. unfold recording. now rewrite Ha. }
  destruct (S a Ha) as (c & b & z & H1 & H2).
  assert (G : get_ctx a w = (w, Ok (c, b))) by (unfold get_ctx; now rewrite H1).
  rewrite (bind_ok _ _ _ _ _ _ G). cbn [fst snd]. destruct b.
  { apply N. unfold recording. now rewrite Ha, H1. }
  assert (R : recording P w = Some c) by (unfold recording; now rewrite Ha, H1).
  destruct (append_run w c z o y x H2 Eo Ek) as (v & ps & l & K1 & Kv & K2).
  exists (with_oparams y ps), l. split; [|split; [|split]].
  - rewrite K1. constructor; auto; cbn; intros.
    + exists x0. auto using same_cls_refl.
    + apply set_nth_length.
    + unfold recs. rewrite R. destruct (nth_set_nth (w_circ w) c z (with_ops (view_q z v) (c_ops z ++ l)) d x0 H2 H) as [(-> & -> & H3)|(n & H3)].
      * rewrite Nat.eqb_refl. eexists. split; [exact H3|]. exists v, (s_cache (c_b z)). now destruct z as [os q [rb vb] lk cx p vs f].
      * apply Nat.eqb_neq in n. rewrite n. exists x0. split; [exact H3|]. apply recorded_refl.
    + destruct (Nat.eq_dec c d) as [<-|n].
      * match goal with |- context [set_circ _ (set_nth c ?zz _)] => apply (qubits_result c w _ z zz H2) end; auto; cbn; try (eapply set_nth_same; eauto; fail).
      * destruct (nth_error (w_circ w) d) as [xd|] eqn:Ed.
        -- apply (qubits_result d w _ xd xd Ed); auto; [cbn; now rewrite set_nth_other|now left].
        -- unfold qubits, mbind, get_circ. cbn. rewrite set_nth_other by auto. now rewrite Ed.
    + destruct (Nat.eq_dec c d) as [<-|n].
      * match goal with |- context [set_circ _ (set_nth c ?zz _)] => apply (bits_result c w _ z zz H2) end; auto; cbn; try (eapply set_nth_same; eauto; fail). now left.
      * destruct (nth_error (w_circ w) d) as [xd|] eqn:Ed.
        -- apply (bits_result d w _ xd xd Ed); auto; [cbn; now rewrite set_nth_other|now left].
        -- unfold bits, mbind, get_circ. cbn. rewrite set_nth_other by auto. now rewrite Ed.
  - now rewrite K1.
  - reflexivity.
  - unfold outcome. destruct (snd (append_op ptrue c o w)); [|exact K2]. destruct K2 as (-> & L & Q & D).
    split; [reflexivity|]. split; [reflexivity|]. split; [reflexivity|]. split; [unfold resolved; rewrite R; exists z; auto|].
    split; [intros c' Hc q Hq; rewrite R in Hc; injection Hc as <-; auto|]. repeat (split; [reflexivity|]).
    intros c' z' Hc Hz. rewrite R in Hc. injection Hc as <-. congruence.
Qed.

(** The object as [Operation.__init__] leaves it before it is recorded. *)
Definition filled (y : opobj P) (qs : option (list item)) (n : option nat) : opobj P :=
  mkOp (o_cls y) qs n (o_params y) (o_control y) (o_target y) (o_bits y) None.
Lemma Forall2_imp {A B} (R S : A -> B -> Prop) l m : (forall a b, R a b -> S a b) -> Forall2 R l m -> Forall2 S l m.
Proof. intros H. induction 1; constructor; auto. Qed.
Lemma outcome_same (w w' : world) o y y' x r l : w_circ w' = w_circ w -> w_bit w' = w_bit w -> w_active w' = w_active w -> w_ctx w' = w_ctx w ->
  w_var w' = w_var w -> sound w -> outcome w' o y y' x r l -> outcome w o y y' x r l.
Proof.
  intros H1 H2 H3 H4 H5 S. unfold outcome. destruct r; [|auto]. intros (A & B & B' & C & D & E & F & G & H & I).
  assert (R : recording P w' = recording P w) by (unfold recording; now rewrite H3, H4).
  assert (Z : forall c, recording P w = Some c -> exists z, nth_error (w_circ w) c = Some z).
  { intros c Hc. unfold recording in Hc. destruct (w_active w) as [b|] eqn:Ha; [|discriminate]. destruct (S b Ha) as (c0 & f & z & K1 & K2).
    rewrite K1 in Hc. destruct f; [discriminate|]. injection Hc as <-. eauto. }
  split; [auto|]. split; [auto|]. split; [auto|]. split; [|split; [|repeat (split; [auto|])]].
  - unfold resolved in *. rewrite R in C. destruct (recording P w) as [c|]; [|exact C]. destruct C as (z & K1 & K2). exists z. rewrite H1 in K1.
    split; [exact K1|]. destruct (negb (parametric z) && has_params (k_kind x)); [|exact K2].
    eapply Forall2_imp; [|exact K2]. intros p q. unfold stands_for. now rewrite H5.
  - intros c Hc q Hq. rewrite <- R in Hc. destruct (D c Hc q Hq) as (rr & K1 & K2). exists rr. split; [|exact K2]. rewrite R in Hc.
    destruct (Z c Hc) as [z Hz]. rewrite <- K1. symmetry. apply (qubits_cached w w' c z z); auto. now rewrite H1.
  - intros c z Hc Hz. rewrite <- R in Hc. rewrite <- H1 in Hz. eauto.
Qed.

Lemma op_init_spec (w : world) k x o y qs : sound w -> nth_error (w_op w) o = Some y -> o_cls y = k -> nth_error (w_cls w) k = Some x ->
  let r := op_init ptrue k o qs w in
  exists y' x' l, effect w (fst r) l /\ w_op (fst r) = set_nth o y' (w_op w) /\ o_cls y' = k /\ same_cls x x' /\
    outcome w o (filled y qs (match k_numq x' with Some n => Some n | None => option_map (@List.length item) qs end)) y' x (snd r) l /\
    (w_active w <> None -> snd r = Ok tt -> qs <> None).
Proof.
  intros S Eo Ec Ek. cbv zeta. unfold op_init. rewrite (read_bind P).
  set (act := w_active w). set (n0 := option_map (@List.length item) qs).
  set (fillin := fun (x' : cls) (v : world) => set_op v (set_nth o (filled y qs (match k_numq x' with Some n => Some n | None => n0 end)) (w_op v))).
  (* the part before recording *)
  match goal with |- context [mbind ?m _ w] => set (pre := m) end.
  assert (H : (exists e v, pre w = (v, Err e) /\ effect w v [] /\ w_op v = w_op w) \/
    (exists v x', pre w = (fillin x' v, Ok tt) /\ effect w v [] /\ w_op v = w_op w /\ w_circ v = w_circ w /\ same_cls x x' /\ nth_error (w_cls v) k = Some x' /\ (w_active w <> None -> qs <> None))).
  { unfold pre. destruct qs as [l|].
    - destruct (effect_check k l w) as (A & B & C). destruct (check_qubits k l w) as [v [u|e]] eqn:Eq; cbn [fst] in *.
      + destruct (ef_cls _ _ _ A k x Ek) as (x' & E' & S'). right. exists v, x'. split; [|repeat (split; [now auto|]); discriminate].
        rewrite (bind_ok _ _ _ _ _ _ Eq). assert (G : get_cls k v = (v, Ok x')) by (unfold get_cls; now rewrite E').
        rewrite (bind_ok _ _ _ _ _ _ G). rewrite <- B in Eo. rewrite (upd_op_run P o _ v y Eo). reflexivity.
      + left. exists e, v. rewrite (bind_err _ _ _ _ _ _ Eq). auto.
    - unfold act. destruct (w_active w) as [a|] eqn:Ha.
      + left. exists TypeError, w. auto using effect_refl.
      + right. exists w, x. assert (G : get_cls k w = (w, Ok x)) by (unfold get_cls; now rewrite Ek).
        rewrite (bind_ok _ _ _ _ _ _ G). rewrite (upd_op_run P o _ w y Eo). split; [|repeat (split; [now auto using effect_refl, same_cls_refl|]); congruence].
        unfold fillin, filled, n0. cbn. now destruct (k_numq x). }
  destruct H as [(e & v & E1 & A & B)|(v & x' & E1 & A & B & C & D & D' & D'')].
  - rewrite (bind_err _ _ _ _ _ _ E1). cbn [fst snd]. exists y, x, []. split; [exact A|]. split; [rewrite B; now apply set_nth_self|].
    split; [exact Ec|]. split; [apply same_cls_refl|]. split; [reflexivity|discriminate].
  - rewrite (bind_ok _ _ _ _ _ _ E1). set (y1 := filled y qs (match k_numq x' with Some n => Some n | None => n0 end)).
    assert (Sv : sound (fillin x' v)) by (apply (effect_sound w _ []); [apply (effect_nil w v); [exact A|apply effect_op]|exact S]).
    assert (E2 : nth_error (w_op (fillin x' v)) o = Some y1) by (cbn; rewrite <- B in Eo; eapply set_nth_same; eauto).
    assert (E3 : nth_error (w_cls (fillin x' v)) (o_cls y1) = Some x') by (cbn; now rewrite Ec).
    pose proof (record_spec (fillin x' v) o y1 x' Sv E2 E3) as Hr. cbv zeta in Hr.
    assert (Ea : w_active (fillin x' v) = act) by (cbn; apply (ef_active _ _ _ A)). rewrite Ea in Hr.
    destruct Hr as (y' & l & F1 & F2 & F3 & F4). exists y', x', l.
    split; [apply (effect_trans w (fillin x' v) _ [] l); [apply (effect_nil w v); [exact A|apply effect_op]|exact F1]|].
    split; [rewrite F2; cbn; rewrite B; apply set_nth_set_nth|]. split; [rewrite F3; exact Ec|]. split; [exact D|].
    assert (Kk : k_kind x' = k_kind x) by apply D. unfold outcome in F4. rewrite Kk in F4. split; [|auto].
    apply (outcome_same w (fillin x' v)); auto; try apply A.
Qed.

(** An object as it comes out of a constructor. *)
Record built (w : world) (k : nat) (x : cls) (ps : option (list (param P))) (a : qargs) (y : opobj P) : Prop := {
  bt_cls : o_cls y = k;
  bt_qubits : o_qubits y = given_qubits (k_kind x) a;
  bt_numq : exists x', same_cls x x' /\ o_numq y = match k_numq x' with Some n => Some n | None => option_map (@List.length item) (given_qubits (k_kind x) a) end;
  bt_params : match k_kind x, ps with
              | KParam, Some l => resolved w KParam l (o_params y)
              | KParCtrl, Some l => o_params y = l
              | KPlain, None | KMeas, None | KCtrl, None => o_params y = []
              | _, _ => False
              end;
  bt_bits : o_bits y = None;
  bt_cond : o_cond y = None;
  bt_control : o_control y = match k_kind x with KCtrl | KParCtrl => fst (fst (split_args x a)) | _ => None end;
  bt_target : o_target y = match k_kind x with KCtrl | KParCtrl => snd (fst (split_args x a)) | _ => None end;
  bt_some : w_active w <> None -> given_qubits (k_kind x) a <> None;
  bt_own : own_qubits w (oqubits y);
  bt_open : forall c z, recording P w = Some c -> nth_error (w_circ w) c = Some z -> c_locked z = false
}.

Lemma init_end (w : world) k x y qs : sound w -> o_cls y = k -> nth_error (w_cls w) k = Some x ->
  let r := op_init ptrue k (List.length (w_op w)) qs (set_op w (w_op w ++ [y])) in
  exists y' x' l, effect w (fst r) l /\ w_op (fst r) = w_op w ++ [y'] /\ o_cls y' = k /\ same_cls x x' /\
    outcome w (List.length (w_op w)) (filled y qs (match k_numq x' with Some n => Some n | None => option_map (@List.length item) qs end)) y' x (snd r) l /\
    (w_active w <> None -> snd r = Ok tt -> qs <> None).
Proof.
  intros S Ec Ek. pose (v := set_op w (w_op w ++ [y])).
  assert (Sv : sound v) by exact (effect_sound w v [] (effect_op w _) S).
  assert (Eo : nth_error (w_op v) (List.length (w_op w)) = Some y) by (cbn; apply nth_end).
  pose proof (op_init_spec v k x (List.length (w_op w)) y qs Sv Eo Ec Ek) as H. cbv zeta in *. fold v.
  destruct H as (y' & x' & l & A & B & C & D & E & G). exists y', x', l.
  split; [exact (effect_trans w v _ [] l (effect_op w _) A)|].
  split; [rewrite B; cbn; apply set_nth_end|]. split; [exact C|]. split; [exact D|]. split; [|exact G].
  apply (outcome_same w v); auto.
Qed.

Lemma upd_end (w : world) y f : upd_op (List.length (w_op w)) f (set_op w (w_op w ++ [y])) = (set_op w (w_op w ++ [f y]), Ok tt).
Proof.
  rewrite (upd_op_run P _ f (set_op w (w_op w ++ [y])) y) by (cbn; apply nth_end). cbn. now rewrite set_nth_end.
Qed.

Definition built_ok (w : world) (k : nat) (ps : option (list (param P))) (a : qargs) (r : world * res nat) (l : list nat) : Prop :=
  match snd r with
  | Ok o => o = List.length (w_op w) /\ l = [o] /\ exists x y, nth_error (w_cls w) k = Some x /\ w_op (fst r) = w_op w ++ [y] /\ built w k x ps a y
  | Err _ => l = [] /\ exists ys, w_op (fst r) = w_op w ++ ys /\ List.length ys <= 1
  end.

Lemma par_init_end (w : world) k x y ps qs : sound w -> o_cls y = k -> nth_error (w_cls w) k = Some x ->
  let r := par_init ptrue x k (List.length (w_op w)) ps qs (set_op w (w_op w ++ [y])) in
  exists y' x' l, effect w (fst r) l /\ w_op (fst r) = w_op w ++ [y'] /\ o_cls y' = k /\ same_cls x x' /\
    outcome w (List.length (w_op w)) (filled (with_oparams y ps) qs (match k_numq x' with Some n => Some n | None => option_map (@List.length item) qs end)) y' x (snd r) l /\
    (w_active w <> None -> snd r = Ok tt -> qs <> None).
Proof.
  intros S Ec Ek. cbv zeta. unfold par_init.
  destruct (check_params x ps (set_op w (w_op w ++ [y]))) as [v [u|e]] eqn:E.
  - assert (v = set_op w (w_op w ++ [y])) as -> by (unfold check_params in E; destruct (k_nparams x) as [n|]; [destruct (Nat.eqb (List.length ps) n)|]; unfold ret, raise in E; injection E as <- _; reflexivity).
    rewrite (bind_ok _ _ _ _ _ _ E), (bind_ok _ _ _ _ _ _ (upd_end w y _)). apply init_end; auto.
  - assert (v = set_op w (w_op w ++ [y])) as -> by (unfold check_params in E; destruct (k_nparams x) as [n|]; [destruct (Nat.eqb (List.length ps) n)|]; unfold ret, raise in E; injection E as <- _; reflexivity).
    rewrite (bind_err _ _ _ _ _ _ E). cbn [fst snd]. exists y, x, []. split; [apply effect_op|]. split; [reflexivity|]. split; [exact Ec|]. split; [apply same_cls_refl|]. split; [reflexivity|discriminate].
Qed.

Lemma split_given x a : (k_kind x = KCtrl \/ k_kind x = KParCtrl) -> snd (split_args x a) = given_qubits (k_kind x) a.
Proof.
  intros H. destruct a as [[[|q l]|]|[[|q l]|] [[|r m]|]]; destruct H as [-> | ->]; reflexivity.
Qed.

Lemma construct_spec (w : world) k ps a : sound w ->
  exists l, effect w (fst (construct ptrue k ps a w)) l /\ built_ok w k ps a (construct ptrue k ps a w) l.
Proof.
  intros S. unfold construct. destruct (nth_error (w_cls w) k) as [x|] eqn:Ek.
  2: { assert (G : get_cls k w = (w, Err Undefined)) by (unfold get_cls; now rewrite Ek).
       rewrite (bind_err _ _ _ _ _ _ G). exists []. split; [apply effect_refl|]. split; [reflexivity|]. exists []. split; [now rewrite app_nil_r|auto]. }
  assert (G : get_cls k w = (w, Ok x)) by (unfold get_cls; now rewrite Ek).
  rewrite (bind_ok _ _ _ _ _ _ G), (read_bind P). set (y0 := mkOp k None (k_numq x) [] None None None None).
  set (body := match k_kind x with KPlain => _ | _ => _ end).
  assert (H : exists l, effect w (fst (body (set_op w (w_op w ++ [y0])))) l /\
    match snd (body (set_op w (w_op w ++ [y0]))) with
    | Ok _ => l = [List.length (w_op w)] /\ exists y, w_op (fst (body (set_op w (w_op w ++ [y0])))) = w_op w ++ [y] /\ built w k x ps a y
    | Err _ => l = [] /\ exists ys, w_op (fst (body (set_op w (w_op w ++ [y0])))) = w_op w ++ ys /\ List.length ys <= 1
    end).
  { assert (T : forall m : M unit, m = raise TypeError -> exists l, effect w (fst (m (set_op w (w_op w ++ [y0])))) l /\
       match snd (m (set_op w (w_op w ++ [y0]))) with
       | Ok _ => l = [List.length (w_op w)] /\ exists y, w_op (fst (m (set_op w (w_op w ++ [y0])))) = w_op w ++ [y] /\ built w k x ps a y
       | Err _ => l = [] /\ exists ys, w_op (fst (m (set_op w (w_op w ++ [y0])))) = w_op w ++ ys /\ List.length ys <= 1
       end).
    { intros m ->. exists []. cbn. split; [apply effect_op|]. split; [reflexivity|]. exists [y0]. auto. }
    unfold body. destruct (k_kind x) eqn:Kk; destruct ps as [ps|]; try (apply T; reflexivity).
    - destruct a as [qs|c t]; [|apply T; reflexivity].
      destruct (init_end w k x y0 qs S eq_refl Ek) as (y' & x' & l & A & B & C & D & E & G'). exists l. split; [exact A|].
      unfold outcome in E. destruct (snd _) as [[]|e]; [|split; [exact E|exists [y']; auto]]. destruct E as (-> & E1 & E2 & E3 & E4 & E5 & E6 & E7 & E8 & E9).
      split; [reflexivity|]. exists y'. split; [exact B|]. constructor; rewrite ?Kk; auto.
      + exists x'. auto.
      + cbn in E3. rewrite Kk in E3. unfold resolved in E3. destruct (recording P w); [|exact E3]. destruct E3 as (z & _ & E3). now destruct (parametric z).
      + unfold oqubits. rewrite E1. exact E4.
    - destruct a as [qs|c t]; [|apply T; reflexivity].
      destruct (par_init_end w k x y0 ps qs S eq_refl Ek) as (y' & x' & l & A & B & C & D & E & G'). exists l. split; [exact A|].
      unfold outcome in E. destruct (snd _) as [[]|e]; [|split; [exact E|exists [y']; auto]]. destruct E as (-> & E1 & E2 & E3 & E4 & E5 & E6 & E7 & E8 & E9).
      split; [reflexivity|]. exists y'. split; [exact B|]. constructor; rewrite ?Kk; auto.
      + exists x'. auto.
      + cbn in E3. rewrite Kk in E3. exact E3.
      + unfold oqubits. rewrite E1. exact E4.
    - destruct (split_args x a) as [[ctl tgt] qs] eqn:Sp. rewrite (bind_ok _ _ _ _ _ _ (upd_end w y0 _)).
      assert (Hq : qs = given_qubits KCtrl a) by (rewrite <- Kk; rewrite <- split_given by auto; now rewrite Sp).
      match goal with |- context [set_op w (w_op w ++ [?yy])] => pose (y1 := yy); fold y1 end.
      destruct (init_end w k x y1 qs S eq_refl Ek) as (y' & x' & l & A & B & C & D & E & G'). exists l. split; [exact A|].
      unfold outcome in E. destruct (snd _) as [[]|e]; [|split; [exact E|exists [y']; auto]]. destruct E as (-> & E1 & E2 & E3 & E4 & E5 & E6 & E7 & E8 & E9).
      split; [reflexivity|]. exists y'. split; [exact B|]. constructor; rewrite ?Kk, ?Sp, <- ?Hq; auto.
      + exists x'. auto.
      + cbn in E3. rewrite Kk in E3. unfold resolved in E3. destruct (recording P w); [|exact E3]. destruct E3 as (z & _ & E3). now destruct (parametric z).
      + unfold oqubits. rewrite E1. exact E4.
    - destruct (split_args x a) as [[ctl tgt] qs] eqn:Sp. rewrite (bind_ok _ _ _ _ _ _ (upd_end w y0 _)).
      assert (Hq : qs = given_qubits KParCtrl a) by (rewrite <- Kk; rewrite <- split_given by auto; now rewrite Sp).
      match goal with |- context [set_op w (w_op w ++ [?yy])] => pose (y1 := yy); fold y1 end.
      destruct (par_init_end w k x y1 ps qs S eq_refl Ek) as (y' & x' & l & A & B & C & D & E & G').
      destruct (par_init ptrue x k (List.length (w_op w)) ps qs (set_op w (w_op w ++ [y1]))) as [v [[]|e]] eqn:Ei; cbn [fst snd] in *.
      2: { rewrite (bind_err _ _ _ _ _ _ Ei). cbn [fst snd]. exists l. split; [exact A|]. split; [exact E|exists [y']; auto]. }
      rewrite (bind_ok _ _ _ _ _ _ Ei). rewrite (upd_op_run P _ _ v y') by (rewrite B; apply nth_end). cbn [fst snd].
      destruct E as (-> & E1 & E2 & E3 & E4 & E5 & E6 & E7 & E8 & E9).
      eexists. split; [exact (effect_trans w v _ [List.length (w_op w)] [] A (effect_op v _))|].
      split; [reflexivity|]. exists (with_oparams y' ps). cbn. rewrite B, set_nth_end. split; [reflexivity|].
      constructor; rewrite ?Kk, ?Sp, <- ?Hq; auto.
      + exists x'. auto.
      + unfold oqubits. cbn. rewrite E1. exact E4.
    - destruct a as [qs|c t]; [|apply T; reflexivity].
      destruct (init_end w k x y0 qs S eq_refl Ek) as (y' & x' & l & A & B & C & D & E & G'). exists l. split; [exact A|].
      unfold outcome in E. destruct (snd _) as [[]|e]; [|split; [exact E|exists [y']; auto]]. destruct E as (-> & E1 & E2 & E3 & E4 & E5 & E6 & E7 & E8 & E9).
      split; [reflexivity|]. exists y'. split; [exact B|]. constructor; rewrite ?Kk; auto.
      + exists x'. auto.
      + cbn in E3. rewrite Kk in E3. unfold resolved in E3. destruct (recording P w); [|exact E3]. destruct E3 as (z & _ & E3). now destruct (parametric z).
      + unfold oqubits. rewrite E1. exact E4. }
  destruct H as (l & A & B). exists l.
  assert (Q : (let! _ := (fun v : world => (set_op v (w_op v ++ [y0]), Ok tt)) in let! _ := body in ret (List.length (w_op w))) w =
     (fst (body (set_op w (w_op w ++ [y0]))), match snd (body (set_op w (w_op w ++ [y0]))) with Ok _ => Ok (List.length (w_op w)) | Err e => Err e end)).
  { unfold mbind. destruct (body (set_op w (w_op w ++ [y0]))) as [v [u|e]]; reflexivity. }
  rewrite Q. cbn [fst snd]. split; [exact A|]. unfold built_ok. cbn [fst snd].
  destruct (snd (body _)) as [u|e]; [|exact B]. destruct B as (-> & y & B1 & B2). split; [reflexivity|]. split; [reflexivity|]. exists x, y. auto.
Qed.
End Build.

(** What calling an operation and calling a circuit do, exactly. *)
From Coq Require Import List ZArith String Bool Arith Lia.
From Verif Require Import Py RegisterModel WorldModel WorldSpec WorldSpec3 WorldInv WorldInv2 WorldInv5 WorldWf WorldWf2 WorldWf3 WorldCtx WorldCtx3 WorldOps WorldBuild.
Import ListNotations.
Local Open Scope nat_scope.

Section Replay.
Variable P : Type.
Variable ptrue : P -> bool.
Variable peqb : P -> P -> bool.
Notation world := (world P).
Notation M := (M P).
Notation effect := (effect P).
Notation sound := (sound P).

Lemma effect_circ (w : world) c x vq vb : nth_error (w_circ w) c = Some x -> viewok (w_bit w) (c_q x) vq -> viewok (w_bit w) (c_b x) vb ->
  effect w (set_circ w (set_nth c (with_b (with_q x (mkSide (s_regs (c_q x)) vq)) (mkSide (s_regs (c_b x)) vb)) (w_circ w))) [].
Proof.
  intros E Vq Vb. constructor; auto; cbn; intros.
  - exists x0. auto using same_cls_refl.
  - apply set_nth_length.
  - rewrite recs_nil. match goal with |- context [set_nth c ?z _] => destruct (nth_set_nth (w_circ w) c x z d x0 E H) as [(-> & -> & H3)|(n & H3)] end.
    + eexists. split; [exact H3|]. exists vq, vb. cbn. now rewrite app_nil_r.
    + exists x0. split; [exact H3|]. apply recorded_refl.
  - destruct (Nat.eq_dec c d) as [<-|n].
    + match goal with |- context [set_circ _ (set_nth c ?zz _)] => apply (qubits_result P c w _ x zz E) end; auto. cbn. eapply set_nth_same; eauto.
    + destruct (nth_error (w_circ w) d) as [xd|] eqn:Ed.
      * apply (qubits_result P d w _ xd xd Ed); auto; [cbn; now rewrite set_nth_other|now left].
      * unfold qubits, mbind, get_circ. cbn. rewrite set_nth_other by auto. now rewrite Ed.
  - destruct (Nat.eq_dec c d) as [<-|n].
    + match goal with |- context [set_circ _ (set_nth c ?zz _)] => apply (bits_result P c w _ x zz E) end; auto. cbn. eapply set_nth_same; eauto.
    + destruct (nth_error (w_circ w) d) as [xd|] eqn:Ed.
      * apply (bits_result P d w _ xd xd Ed); auto; [cbn; now rewrite set_nth_other|now left].
      * unfold bits, mbind, get_circ. cbn. rewrite set_nth_other by auto. now rewrite Ed.
Qed.
Lemma effect_qubits c (w : world) : effect w (fst (qubits c w)) [] /\ w_op (fst (qubits c w)) = w_op w.
Proof.
  destruct (nth_error (w_circ w) c) as [x|] eqn:E.
  - destruct (qubits_shape P c w x E) as (v & -> & _ & V). split; [|reflexivity].
    pose proof (effect_circ w c x v (s_cache (c_b x)) E V (or_introl eq_refl)) as H.
    replace (with_b (with_q x (mkSide (s_regs (c_q x)) v)) (mkSide (s_regs (c_b x)) (s_cache (c_b x)))) with (view_q x v) in H; [exact H|].
    now destruct x as [o q [rb vb] l cx p vs f].
  - rewrite (qubits_undefined P c w E). split; [apply effect_refl|reflexivity].
Qed.
Lemma effect_bits c (w : world) : effect w (fst (bits c w)) [] /\ w_op (fst (bits c w)) = w_op w.
Proof.
  destruct (nth_error (w_circ w) c) as [x|] eqn:E.
  - assert (H : exists v, fst (bits c w) = set_circ w (set_nth c (with_b x (mkSide (s_regs (c_b x)) v)) (w_circ w)) /\ viewok (w_bit w) (c_b x) v).
    { unfold bits. rewrite (bind_ok _ _ _ _ _ _ (get_circ_some P c w x E)). 
      assert (S : with_b x (mkSide (s_regs (c_b x)) (s_cache (c_b x))) = x) by now destruct x as [o q [rb vb] l cx p vs f].
      destruct (s_cache (c_b x)) as [r|] eqn:Ec.
      - exists (Some r). cbn. rewrite S. split; [now rewrite set_circ_self|]. left. now rewrite Ec.
      - unfold read, lift, mbind. destruct (concat_regs (w_bit w) (c_b x)) as [r|e] eqn:Er; cbn.
        + exists (Some r). split; [reflexivity|]. right. eauto.
        + exists None. rewrite S. split; [now rewrite set_circ_self|]. left. now rewrite Ec. }
    destruct H as (v & -> & V). split; [|reflexivity].
    pose proof (effect_circ w c x (s_cache (c_q x)) v E (or_introl eq_refl) V) as H.
    replace (with_b (with_q x (mkSide (s_regs (c_q x)) (s_cache (c_q x)))) (mkSide (s_regs (c_b x)) v)) with (with_b x (mkSide (s_regs (c_b x)) v)) in H; [exact H|].
    now destruct x as [o [rq vq] b l cx p vs f].
  - assert (H : bits c w = (w, Err Undefined)) by (unfold bits; now rewrite (bind_err _ _ _ _ _ _ (get_circ_none P c w E))).
    rewrite H. split; [apply effect_refl|reflexivity].
Qed.

(** What holds of an object that was recorded, whatever happened afterwards. *)
Definition fit (w : world) (z : opobj P) : Prop :=
  own_qubits P w (oqubits z) /\
  forall k, nth_error (w_cls w) (o_cls z) = Some k -> k_kind k = KParam -> exists ps, resolved P ptrue w KParam ps (o_params z).
Lemma built_fit (w : world) k x ps a y : nth_error (w_cls w) k = Some x -> built P ptrue w k x ps a y -> fit w y.
Proof.
  intros E []. split; [exact bt_own|]. intros k' E' Hk. rewrite bt_cls, E in E'. injection E' as <-. rewrite Hk in bt_params.
  destruct ps as [l|]; [eauto|easy].
Qed.

(** Calling an operation. *)
Lemma call_op_spec (w : world) o a : sound w -> exists l, effect w (fst (call_op ptrue o a w)) l /\
  match snd (call_op ptrue o a w) with
  | Ok n => n = List.length (w_op w) /\ l = [n] /\ exists y, w_op (fst (call_op ptrue o a w)) = w_op w ++ [y] /\ fit w y
  | Err _ => l = [] /\ exists ys, w_op (fst (call_op ptrue o a w)) = w_op w ++ ys /\ List.length ys <= 1
  end.
Proof.
  intros S. unfold call_op.
  assert (N : forall e, exists l, effect w w l /\ match @Err nat e with Ok n => n = List.length (w_op w) /\ l = [n] /\ exists y, w_op w = w_op w ++ [y] /\ fit w y
     | Err _ => l = [] /\ exists ys, w_op w = w_op w ++ ys /\ List.length ys <= 1 end).
  { intros e. exists []. split; [apply effect_refl|]. split; [reflexivity|]. exists []. rewrite app_nil_r. auto. }
  destruct (nth_error (w_op w) o) as [x|] eqn:Eo.
  2: { assert (G : get_op o w = (w, Err Undefined)) by (unfold get_op; now rewrite Eo). rewrite (bind_err _ _ _ _ _ _ G). apply (N Undefined). }
  assert (G : get_op o w = (w, Ok x)) by (unfold get_op; now rewrite Eo). rewrite (bind_ok _ _ _ _ _ _ G).
  destruct (nth_error (w_cls w) (o_cls x)) as [k|] eqn:Ek.
  2: { assert (G1 : get_cls (o_cls x) w = (w, Err Undefined)) by (unfold get_cls; now rewrite Ek). rewrite (bind_err _ _ _ _ _ _ G1). apply (N Undefined). }
  assert (G1 : get_cls (o_cls x) w = (w, Ok k)) by (unfold get_cls; now rewrite Ek). rewrite (bind_ok _ _ _ _ _ _ G1).
  assert (C : forall k ps a, exists l, effect w (fst (construct ptrue k ps a w)) l /\
     match snd (construct ptrue k ps a w) with
     | Ok n => n = List.length (w_op w) /\ l = [n] /\ exists y, w_op (fst (construct ptrue k ps a w)) = w_op w ++ [y] /\ fit w y
     | Err _ => l = [] /\ exists ys, w_op (fst (construct ptrue k ps a w)) = w_op w ++ ys /\ List.length ys <= 1
     end).
  { intros k' ps a'. destruct (construct_spec P ptrue w k' ps a' S) as (l & A & B). exists l. split; [exact A|]. unfold built_ok in B.
    destruct (snd _); [|exact B]. destruct B as (-> & -> & z & y & Ez & B & Bt). pose proof (built_fit w k' z ps a' y Ez Bt). eauto 6. }
  destruct (k_kind k); destruct a; first [apply C|apply (N TypeError)].
Qed.

(** ** Replaying an operation *)
Record copied (w : world) (qm : list (item * item)) (bm : option (list (item * item))) (y : opobj P) (k : cls) (z : opobj P) : Prop := {
  cp_cls : o_cls z = o_cls y;
  cp_qubits : exists mq, mapM (look qm) (oqubits y) = Ok mq /\ o_qubits z = Some mq;
  cp_params : match k_kind k with
              | KParam => resolved P ptrue w KParam (o_params y) (o_params z)
              | KParCtrl => o_params z = o_params y
              | _ => o_params z = []
              end;
  cp_bits : match k_kind k, bm with
            | KMeas, Some d => exists mb n, mapM (look d) (match o_bits y with Some l => l | None => [] end) = Ok mb /\ o_numq z = Some n /\ n <= List.length mb /\ o_bits z = Some (firstn n mb)
            | _, _ => o_bits z = None
            end;
  cp_numq : exists k', same_cls k k' /\ o_numq z = match k_numq k' with Some n => Some n | None => Some (List.length (oqubits z)) end;
  cp_cond : o_cond z = None;
  cp_own : own_qubits P w (oqubits z);
  cp_open : forall c x, recording P w = Some c -> nth_error (w_circ w) c = Some x -> c_locked x = false;
  cp_ctrl : k_kind k = KCtrl -> List.length (oqubits y) = 2
}.

Lemma fit_bits (w : world) z b : fit w z -> fit w (with_obits z b). Proof. destruct z. exact (fun H => H). Qed.

Lemma effect_more (w w' : world) l y : effect w w' l -> effect w (set_op w' y) l.
Proof. intros H. pose proof (effect_trans P w w' (set_op w' y) l [] H (effect_op P w' y)) as G. now rewrite app_nil_r in G. Qed.

Lemma given_plain k l : match k with KPlain | KParam | KMeas => True | _ => False end -> given_qubits k (AQ l) = l.
Proof. destruct k; simpl; try easy; now destruct l as [[|? ?]|]. Qed.

Lemma mapM_length {A B} (f : A -> res B) l : forall m, mapM f l = Ok m -> List.length m = List.length l.
Proof.
  induction l as [|a l IH]; simpl; intros m H; [now injection H as <-|].
  destruct (f a); [|discriminate]. cbn in H. destruct (mapM f l) as [m'|]; [|discriminate]. cbn in H. injection H as <-. cbn. f_equal. auto.
Qed.

Lemma replay_spec (w : world) qm bm o y k : sound w -> w_active w <> None -> nth_error (w_op w) o = Some y -> nth_error (w_cls w) (o_cls y) = Some k ->
  exists l zs, effect w (fst (replay ptrue qm bm o w)) l /\ w_op (fst (replay ptrue qm bm o w)) = w_op w ++ zs /\ Forall (fit w) (firstn (List.length l) zs) /\
   match snd (replay ptrue qm bm o w) with
   | Ok _ => l = [List.length (w_op w)] /\ exists z, zs = [z] /\ copied w qm bm y k z
   | Err _ => List.length zs <= 1 /\ (l = [] \/ l = [List.length (w_op w)] /\ List.length zs = 1)
   end.
Proof.
  intros S Ha Eo Ek. unfold replay.
  assert (G : get_op o w = (w, Ok y)) by (unfold get_op; now rewrite Eo). rewrite (bind_ok _ _ _ _ _ _ G).
  assert (G1 : get_cls (o_cls y) w = (w, Ok k)) by (unfold get_cls; now rewrite Ek). rewrite (bind_ok _ _ _ _ _ _ G1).
  assert (N : forall e, exists l zs, effect w w l /\ w_op w = w_op w ++ zs /\ Forall (fit w) (firstn (List.length l) zs) /\ match @Err unit e with
     | Ok _ => l = [List.length (w_op w)] /\ exists z, zs = [z] /\ copied w qm bm y k z
     | Err _ => List.length zs <= 1 /\ (l = [] \/ l = [List.length (w_op w)] /\ List.length zs = 1) end).
  { intros e. exists [], []. split; [apply effect_refl|]. split; [now rewrite app_nil_r|]. split; [constructor|auto]. }
  destruct (mapM (look qm) (oqubits y)) as [mq|e] eqn:Em.
  2: { rewrite (bind_err _ _ _ _ _ _ (eq_refl : lift (Err e) w = (w, Err e))). apply (N e). }
  rewrite (bind_ok _ _ _ _ _ _ (eq_refl : lift (Ok mq) w = (w, Ok mq))).
  assert (L := mapM_length _ _ _ Em).
  (* all cases but measurements with bits *)
  assert (C : forall ps a, given_qubits (k_kind k) a = Some mq \/ given_qubits (k_kind k) a = None ->
     match k_kind k with KParam | KParCtrl => ps = Some (o_params y) | _ => ps = None end ->
     match k_kind k, bm with KMeas, Some d => False | _, _ => True end -> (k_kind k = KCtrl -> List.length (oqubits y) = 2 \/ given_qubits (k_kind k) a = None) ->
     exists l zs, effect w (fst ((construct ptrue (o_cls y) ps a ;; ret tt) w)) l /\ w_op (fst ((construct ptrue (o_cls y) ps a ;; ret tt) w)) = w_op w ++ zs /\ Forall (fit w) (firstn (List.length l) zs) /\
      match snd ((construct ptrue (o_cls y) ps a ;; ret tt) w) with
      | Ok _ => l = [List.length (w_op w)] /\ exists z, zs = [z] /\ copied w qm bm y k z
      | Err _ => List.length zs <= 1 /\ (l = [] \/ l = [List.length (w_op w)] /\ List.length zs = 1) end).
  { intros ps a Hg Hp Hb Hc. destruct (construct_spec P ptrue w (o_cls y) ps a S) as (l & A & B). unfold built_ok in B.
    destruct (construct ptrue (o_cls y) ps a w) as [w1 [n|e]] eqn:E; cbn [fst snd] in *.
    - rewrite (bind_ok _ _ _ _ _ _ E). cbn [fst snd ret]. destruct B as (-> & -> & k0 & z & E0 & B1 & B2). rewrite Ek in E0. injection E0 as <-.
      exists [List.length (w_op w)], [z]. split; [exact A|]. split; [exact B1|].
      split; [constructor; [eapply built_fit; eauto|constructor]|]. split; [reflexivity|]. exists z. split; [reflexivity|].
      destruct B2. assert (given_qubits (k_kind k) a = Some mq) as Hq by (destruct Hg; [assumption|exfalso; apply bt_some; auto]).
      constructor; auto.
      + exists mq. split; [exact Em|congruence].
      + destruct (k_kind k); subst ps; auto.
      + destruct (k_kind k); auto. now destruct bm.
      + destruct bt_numq as (k' & K1 & K2). exists k'. split; [exact K1|]. rewrite K2. unfold oqubits. rewrite bt_qubits, Hq. reflexivity.
      + intros Hk. destruct (Hc Hk) as [H|H]; [exact H|congruence].
    - rewrite (bind_err _ _ _ _ _ _ E). cbn [fst snd]. destruct B as (-> & ys & B1 & B2). exists [], ys. split; [exact A|]. split; [exact B1|]. split; [constructor|auto]. }
  assert (D : match k_kind k, bm with KMeas, Some _ => False | _, _ => True end -> exists l zs, effect w (fst ((
      match k_kind k with
      | KParam | KParCtrl => construct ptrue (o_cls y) (Some (o_params y)) (AQ (Some mq)) ;; ret tt
      | KCtrl => let! a := star_args mq in construct ptrue (o_cls y) None a ;; ret tt
      | _ => construct ptrue (o_cls y) None (AQ (Some mq)) ;; ret tt
      end) w)) l /\ w_op (fst ((
      match k_kind k with
      | KParam | KParCtrl => construct ptrue (o_cls y) (Some (o_params y)) (AQ (Some mq)) ;; ret tt
      | KCtrl => let! a := star_args mq in construct ptrue (o_cls y) None a ;; ret tt
      | _ => construct ptrue (o_cls y) None (AQ (Some mq)) ;; ret tt
      end) w)) = w_op w ++ zs /\ Forall (fit w) (firstn (List.length l) zs) /\ match snd ((
      match k_kind k with
      | KParam | KParCtrl => construct ptrue (o_cls y) (Some (o_params y)) (AQ (Some mq)) ;; ret tt
      | KCtrl => let! a := star_args mq in construct ptrue (o_cls y) None a ;; ret tt
      | _ => construct ptrue (o_cls y) None (AQ (Some mq)) ;; ret tt
      end) w) with
      | Ok _ => l = [List.length (w_op w)] /\ exists z, zs = [z] /\ copied w qm bm y k z
      | Err _ => List.length zs <= 1 /\ (l = [] \/ l = [List.length (w_op w)] /\ List.length zs = 1) end).
  { intros Hb. destruct (k_kind k) eqn:Kk.
    - apply C; auto; discriminate.
    - apply C; auto; discriminate.
    - destruct mq as [|q1 [|q2 [|q3 mq]]].
      + apply C; auto.
      + apply C; auto.
      + apply C; auto.
      + apply (N TypeError).
    - apply C; auto; [|discriminate]. destruct mq; auto.
    - apply C; auto; discriminate. }
  destruct (k_kind k) eqn:Kk; try (apply D; auto).
  destruct bm as [d|]; [|apply D; exact I]. clear C D.
  set (bs := match o_bits y with Some l => l | None => [] end).
  destruct (mapM (look d) bs) as [mb|e] eqn:Eb.
  2: { rewrite (bind_err _ _ _ _ _ _ (eq_refl : lift (Err e) w = (w, Err e))). apply (N e). }
  rewrite (bind_ok _ _ _ _ _ _ (eq_refl : lift (Ok mb) w = (w, Ok mb))).
  destruct (construct_spec P ptrue w (o_cls y) None (AQ (Some mq)) S) as (l & A & B). unfold built_ok in B.
  destruct (construct ptrue (o_cls y) None (AQ (Some mq)) w) as [w1 [n|e]] eqn:E; cbn [fst snd] in *.
  2: { rewrite (bind_err _ _ _ _ _ _ E). cbn [fst snd]. destruct B as (-> & ys & B1 & B2). exists [], ys. split; [exact A|]. split; [exact B1|]. split; [constructor|auto]. }
  rewrite (bind_ok _ _ _ _ _ _ E). destruct B as (-> & -> & k0 & z & E0 & B1 & B2). rewrite Ek in E0. injection E0 as <-.
  pose proof (built_fit w _ k _ _ z Ek B2) as Fz.
  assert (Ez : nth_error (w_op w1) (List.length (w_op w)) = Some z) by (rewrite B1; apply nth_end).
  unfold store. assert (G2 : get_op (List.length (w_op w)) w1 = (w1, Ok z)) by (unfold get_op; now rewrite Ez).
  rewrite (bind_ok _ _ _ _ _ _ G2). destruct B2. destruct (ef_cls _ _ _ _ A (o_cls y) k Ek) as (k1 & Ek1 & Sk1).
  assert (G3 : get_cls (o_cls z) w1 = (w1, Ok k1)) by (unfold get_cls; now rewrite bt_cls, Ek1).
  rewrite (bind_ok _ _ _ _ _ _ G3). replace (k_kind k1) with KMeas by (destruct Sk1 as (_ & H & _); congruence).
  rewrite Kk in *. rewrite given_plain in * by exact I.
  destruct bt_numq as (k' & K1 & K2). 
  destruct (o_numq z) as [n|] eqn:En.
  2: { cbn [fst snd raise]. eexists _, [z]. split; [exact A|]. split; [exact B1|]. split; [constructor; [exact Fz|constructor]|]. cbn. auto. }
  destruct (Nat.ltb (List.length mb) n) eqn:Lt.
  { cbn [fst snd raise]. eexists _, [z]. split; [exact A|]. split; [exact B1|]. split; [constructor; [exact Fz|constructor]|]. cbn. auto. }
  cbn [fst snd put_op]. exists [List.length (w_op w)], [with_obits z (Some (firstn n mb))].
  split; [now apply effect_more|]. split; [cbn; rewrite B1, set_nth_end; reflexivity|]. split; [constructor; [exact (fit_bits _ _ _ Fz)|constructor]|]. split; [reflexivity|]. eexists. split; [reflexivity|].
  constructor; rewrite ?Kk; auto.
  - exists mq. auto.
  - exists mb, n. apply Nat.ltb_ge in Lt. auto.
  - exists k'. split; [exact K1|]. cbn. unfold oqubits. cbn. rewrite En, bt_qubits. exact K2.
  - discriminate.
Qed.

(** What was said about a later state holds of the earlier one. *)
Lemma recording_effect (w w' : world) l : effect w w' l -> recording P w' = recording P w.
Proof. intros E. unfold recording. now rewrite (ef_active _ _ _ _ E), (ef_ctx _ _ _ _ E). Qed.
Lemma recorded_par x x' l : recorded x x' l -> parametric x' = parametric x /\ c_locked x' = c_locked x /\ c_par x' = c_par x /\ c_vars x' = c_vars x /\
  s_regs (c_q x') = s_regs (c_q x) /\ s_regs (c_b x') = s_regs (c_b x) /\ c_ops x' = c_ops x ++ l /\ c_ctx x' = c_ctx x.
Proof. intros (vq & vb & ->). repeat split. Qed.
Lemma recording_circ (w : world) c : sound w -> recording P w = Some c -> exists x, nth_error (w_circ w) c = Some x.
Proof.
  intros S R. unfold recording in R. destruct (w_active w) as [a|] eqn:Ha; [|discriminate]. destruct (S a Ha) as (d & b & x & H1 & H2).
  rewrite H1 in R. destruct b; [discriminate|]. injection R as <-. eauto.
Qed.
Lemma resolved_effect (w w' : world) l k ps ps' : sound w -> effect w w' l -> resolved P ptrue w' k ps ps' -> resolved P ptrue w k ps ps'.
Proof.
  intros S E H. unfold resolved in *. rewrite (recording_effect w w' l E) in H. destruct (recording P w) as [c|] eqn:R; [|exact H].
  destruct H as (x' & H1 & H2). destruct (recording_circ w c S R) as [x Hx]. exists x. split; [exact Hx|].
  destruct (ef_circ _ _ _ _ E c x Hx) as (x'' & H3 & H4). rewrite H1 in H3. injection H3 as <-. destruct (recorded_par _ _ _ H4) as (Hp & _).
  rewrite Hp in H2. destruct (negb (parametric x) && has_params k); [|exact H2]. eapply Forall2_imp; [|exact H2].
  intros p q. unfold stands_for. now rewrite (ef_var _ _ _ _ E).
Qed.
Lemma own_effect (w w' : world) l qs : effect w w' l -> own_qubits P w' qs -> own_qubits P w qs.
Proof.
  intros E H c Hc q Hq. rewrite <- (recording_effect w w' l E) in Hc. destruct (H c Hc q Hq) as (r & H1 & H2). exists r. split; [|exact H2].
  now rewrite <- (ef_q _ _ _ _ E).
Qed.
Lemma copied_effect (w w' : world) l qm bm y k k' z : sound w -> effect w w' l -> same_cls k k' -> copied w' qm bm y k' z -> copied w qm bm y k z.
Proof.
  intros S E Sk []. assert (Kk : k_kind k' = k_kind k) by apply Sk. rewrite Kk in *. constructor; auto.
  - destruct (k_kind k); auto. eapply resolved_effect; eauto.
  - destruct cp_numq0 as (k'' & H1 & H2). exists k''. split; [eapply same_cls_trans; eauto|exact H2].
  - eapply own_effect; eauto.
  - intros c x Hc Hx. destruct (ef_circ _ _ _ _ E c x Hx) as (x' & H1 & H2). destruct (recorded_par _ _ _ H2) as (_ & H3 & _).
    rewrite <- H3. apply (cp_open0 c); [|exact H1]. now rewrite (recording_effect w w' l E).
Qed.

Lemma fit_effect (w w' : world) l z : sound w -> effect w w' l -> fit w' z -> fit w z.
Proof.
  intros S E [H1 H2]. split; [eapply own_effect; eauto|]. intros k Ek Hk. destruct (ef_cls _ _ _ _ E _ _ Ek) as (k' & Ek' & Sk).
  destruct (H2 k' Ek') as [ps Hp]; [destruct Sk as (_ & -> & _); exact Hk|]. exists ps. eapply resolved_effect; eauto.
Qed.

(** ** Replaying a list of operations *)
Definition obj (w : world) (o : nat) (y : opobj P) (k : cls) : Prop := nth_error (w_op w) o = Some y /\ nth_error (w_cls w) (o_cls y) = Some k.
Lemma replays_spec qm bm os : forall w : world, sound w -> w_active w <> None -> Forall (fun o => exists y k, obj w o y k) os ->
  let r := iterM (replay ptrue qm bm) os w in
  exists j zs, effect w (fst r) (seq (List.length (w_op w)) j) /\ w_op (fst r) = w_op w ++ zs /\ Forall (fit w) (firstn j zs) /\
    match snd r with
    | Ok _ => j = List.length os /\ Forall2 (fun o z => exists y k, obj w o y k /\ copied w qm bm y k z) os zs
    | Err _ => j <= List.length zs <= S j /\ j <= List.length os
    end.
Proof.
  induction os as [|o os IH]; intros w Sw Ha F; cbv zeta.
  - exists 0, []. cbn. rewrite app_nil_r. split; [apply effect_refl|]. split; [reflexivity|]. split; [constructor|auto].
  - inversion F as [|? ? (y & k & Eo & Ek) F']; subst. destruct (replay_spec w qm bm o y k Sw Ha Eo Ek) as (l & zs & A & B & Ft & C).
    cbn [iterM]. destruct (replay ptrue qm bm o w) as [w1 [u|e]] eqn:E; cbn [fst snd] in *.
    2: { rewrite (bind_err _ _ _ _ _ _ E). cbn [fst snd]. destruct C as (C1 & [->|[-> C2]]).
         - exists 0, zs. cbn. split; [exact A|]. split; [exact B|]. split; [constructor|lia].
         - exists 1, zs. cbn. split; [exact A|]. split; [exact B|]. split; [exact Ft|lia]. }
    rewrite (bind_ok _ _ _ _ _ _ E). destruct C as (-> & z & -> & C).
    assert (S1 : sound w1) by (eapply effect_sound; eauto).
    assert (Ha1 : w_active w1 <> None) by (now rewrite (ef_active _ _ _ _ A)).
    assert (O1 : forall o' y' k', obj w o' y' k' -> exists k'', obj w1 o' y' k'' /\ same_cls k' k'').
    { intros o' y' k' [H1 H2]. destruct (ef_cls _ _ _ _ A _ _ H2) as (k'' & H3 & H4). exists k''. split; [|exact H4]. split; [|exact H3].
      rewrite B. now apply nth_app_left. }
    destruct (IH w1 S1 Ha1) as (j & zs & A2 & B2 & Ft2 & C2).
    { eapply Forall_impl; [|exact F']. intros o' (y' & k' & H). destruct (O1 _ _ _ H) as (k'' & H' & _). eauto. }
    exists (S j), (z :: zs). cbv zeta in *. assert (L : List.length (w_op w1) = S (List.length (w_op w))) by (rewrite B, app_length; cbn; lia).
    rewrite L in A2. split; [exact (effect_trans _ _ _ _ _ _ A A2)|]. split; [rewrite B2, B, <- app_assoc; reflexivity|].
    split; [cbn; constructor; [now inversion Ft|]; eapply Forall_impl; [|exact Ft2]; intros z' Hz'; eapply fit_effect; eauto|].
    destruct (snd _) as [u'|e]; [|cbn; lia]. destruct C2 as [-> C2]. split; [reflexivity|]. constructor; [exists y, k; split; [split; auto|exact C]|].
    rewrite Forall_forall in F'. clear -C2 O1 Sw A F'. induction C2 as [|o' z' os zs H C2 IH]; constructor; [|apply IH; intros; apply F'; now right].
    destruct H as (y' & k'' & [H1 H2] & H3). destruct (F' o' (or_introl eq_refl)) as (y0 & k0 & H0). destruct (O1 _ _ _ H0) as (k1 & [H4 H5] & H6).
    rewrite H1 in H4. injection H4 as <-. rewrite H2 in H5. injection H5 as <-. exists y', k0. split; [exact H0|]. eapply copied_effect; eauto.
Qed.

(** ** Calling a circuit *)
Record called (w : world) (t : nat) (qs : list item) (ba : bargs) (x : circ) (ks : list item) (bm : option (list (item * item))) : Prop := {
  cl_other : forall a, w_active w = Some a -> forall f, nth_error (w_ctx w) a <> Some (t, f);
  cl_active : w_active w <> None;
  cl_circ : nth_error (w_circ w) t = Some x;
  cl_qubits : exists vq, snd (qubits t w) = Ok vq /\ items (core vq) = Ok ks /\ List.length qs = stop (core vq);
  cl_bits : match bargs_list w ba with
            | None => bm = None
            | Some l => exists vb kb, snd (bits t w) = Ok vb /\ items (core vb) = Ok kb /\ List.length l = stop (core vb) /\ bm = Some (zip_dict kb l)
            end
}.
Lemma WF_objs (w : world) t x : WF P w -> nth_error (w_circ w) t = Some x -> Forall (fun o => exists y k, obj w o y k) (c_ops x).
Proof.
  intros W E. apply Forall_forall. intros o Ho. pose proof (wf_ops _ _ W t x o E Ho) as L.
  destruct (nth_error (w_op w) o) as [y|] eqn:Eo; [|apply nth_error_None in Eo; lia].
  pose proof (wf_cls _ _ W o y Eo) as L2. destruct (nth_error (w_cls w) (o_cls y)) as [k|] eqn:Ek; [|apply nth_error_None in Ek; lia].
  exists y, k. split; assumption.
Qed.
Lemma call_circuit_spec (w : world) t qs ba : WF P w ->
  let r := call_circuit ptrue t qs ba w in
  exists j zs, effect w (fst r) (seq (List.length (w_op w)) j) /\ w_op (fst r) = w_op w ++ zs /\ Forall (fit w) (firstn j zs) /\
    match snd r with
    | Ok _ => exists x ks bm, called w t qs ba x ks bm /\ j = List.length (c_ops x) /\
        Forall2 (fun o z => exists y k, obj w o y k /\ copied w (zip_dict ks qs) bm y k z) (c_ops x) zs
    | Err _ => j <= List.length zs <= S j
    end.
Proof.
  intros W. cbv zeta. unfold call_circuit. rewrite (read_bind P).
  assert (N : forall (w' : world) e, effect w w' [] -> w_op w' = w_op w -> exists j zs, effect w w' (seq (List.length (w_op w)) j) /\ w_op w' = w_op w ++ zs /\ Forall (fit w) (firstn j zs) /\
    match @Err unit e with Ok _ => exists x ks bm, called w t qs ba x ks bm /\ j = List.length (c_ops x) /\
        Forall2 (fun o z => exists y k, obj w o y k /\ copied w (zip_dict ks qs) bm y k z) (c_ops x) zs
    | Err _ => j <= List.length zs <= S j end).
  { intros w' e H1 H2. exists 0, []. rewrite app_nil_r. cbn. split; [exact H1|]. split; [exact H2|]. split; [constructor|lia]. }
  destruct (w_active w) as [a|] eqn:Ha; [|apply (N w CircuitError); [apply effect_refl|reflexivity]].
  destruct (WF_sound P w W a Ha) as (c & b & xc & H1 & H2).
  assert (G : get_ctx a w = (w, Ok (c, b))) by (unfold get_ctx; now rewrite H1). rewrite (bind_ok _ _ _ _ _ _ G). cbn [fst].
  destruct (Nat.eqb c t) eqn:Hct; [apply (N w TypeError); [apply effect_refl|reflexivity]|]. apply Nat.eqb_neq in Hct.
  destruct (effect_qubits t w) as [Q1 Q2]. destruct (qubits t w) as [w1 [vq|e]] eqn:Eq; cbn [fst snd] in *.
  2: { rewrite (bind_err _ _ _ _ _ _ Eq). now apply (N w1 e). }
  rewrite (bind_ok _ _ _ _ _ _ Eq). destruct (Nat.eqb (List.length qs) (stop (core vq))) eqn:El; cbn [negb]; [|now apply (N w1 ValueError)].
  apply Nat.eqb_eq in El. rewrite (read_bind P).
  assert (Bl : bargs_list w1 ba = bargs_list w ba).
  { destruct ba; auto. cbn. unfold bit_true. now rewrite (ef_bit _ _ _ _ Q1). }
  rewrite Bl.
  match goal with |- context [(let! _ := ?m in _) w1] => set (mb := m) end.
  assert (Hb : effect w (fst (mb w1)) [] /\ w_op (fst (mb w1)) = w_op w /\ forall bm, snd (mb w1) = Ok bm -> match bargs_list w ba with
            | None => bm = None
            | Some l => exists vb kb, snd (bits t w) = Ok vb /\ items (core vb) = Ok kb /\ List.length l = stop (core vb) /\ bm = Some (zip_dict kb l)
            end).
  { unfold mb. destruct (bargs_list w ba) as [l|]; [|cbn; split; [exact Q1|split; [exact Q2|congruence]]].
    destruct (effect_bits t w1) as [B1 B2]. pose proof (ef_b _ _ _ _ Q1 t) as Bt. destruct (bits t w1) as [w2 [vb|e]] eqn:Eb; cbn [fst snd] in *.
    2: { rewrite (bind_err _ _ _ _ _ _ Eb). cbn [fst snd]. split; [exact (effect_nil _ _ _ _ Q1 B1)|]. split; [congruence|discriminate]. }
    rewrite (bind_ok _ _ _ _ _ _ Eb). destruct (Nat.eqb (List.length l) (stop (core vb))) eqn:Elb; cbn [negb].
    2: { cbn [fst snd raise]. split; [exact (effect_nil _ _ _ _ Q1 B1)|]. split; [congruence|discriminate]. }
    apply Nat.eqb_eq in Elb. unfold lift, mbind, ret. destruct (items (core vb)) as [kb|e] eqn:Ei; cbn [fst snd]; (split; [exact (effect_nil _ _ _ _ Q1 B1)|]; split; [congruence|]); [|discriminate].
    intros bm [= <-]. exists vb, kb. auto. }
  destruct Hb as (B1 & B2 & B3). destruct (mb w1) as [w2 [bm|e]] eqn:Em; cbn [fst snd] in *.
  2: { rewrite (bind_err _ _ _ _ _ _ Em). now apply (N w2 e). }
  rewrite (bind_ok _ _ _ _ _ _ Em). specialize (B3 bm eq_refl).
  destruct (items (core vq)) as [ks|e] eqn:Ei.
  2: { rewrite (bind_err _ _ _ _ _ _ (eq_refl : lift (Err e) w2 = (w2, Err e))). now apply (N w2 e). }
  rewrite (bind_ok _ _ _ _ _ _ (eq_refl : lift (Ok ks) w2 = (w2, Ok ks))).
  destruct (nth_error (w_circ w2) t) as [x2|] eqn:E2.
  2: { rewrite (bind_err _ _ _ _ _ _ (get_circ_none P t w2 E2)). now apply (N w2 Undefined). }
  rewrite (bind_ok _ _ _ _ _ _ (get_circ_some P t w2 x2 E2)).
  destruct (nth_error (w_circ w) t) as [x|] eqn:Et.
  2: { apply nth_error_None in Et. rewrite <- (ef_len _ _ _ _ B1) in Et. apply nth_error_None in Et. congruence. }
  destruct (ef_circ _ _ _ _ B1 t x Et) as (x' & Ex' & R). rewrite E2 in Ex'. injection Ex' as <-. rewrite recs_nil in R.
  destruct (recorded_par _ _ _ R) as (_ & _ & _ & _ & _ & _ & R7 & _). rewrite app_nil_r in R7. rewrite R7.
  assert (S2 : sound w2) by (eapply effect_sound; [exact B1|now apply WF_sound]).
  assert (Ha2 : w_active w2 <> None) by (rewrite (ef_active _ _ _ _ B1), Ha; discriminate).
  assert (O2 : forall o y k, obj w o y k -> exists k', obj w2 o y k' /\ same_cls k k').
  { intros o y k [K1 K2]. destruct (ef_cls _ _ _ _ B1 _ _ K2) as (k' & K3 & K4). exists k'. split; [|exact K4]. split; [now rewrite B2|exact K3]. }
  pose proof (WF_objs w t x W Et) as F.
  destruct (replays_spec (zip_dict ks qs) bm (c_ops x) w2 S2 Ha2) as (j & zs & A & B & Ft & C).
  { eapply Forall_impl; [|exact F]. intros o (y & k & H). destruct (O2 _ _ _ H) as (k' & H' & _). eauto. }
  cbv zeta in *. rewrite B2 in A, B. exists j, zs. split; [exact (effect_trans _ _ _ _ [] _ B1 A)|]. split; [exact B|].
  split; [eapply Forall_impl; [|exact Ft]; intros z Hz; eapply fit_effect; eauto; now apply WF_sound|].
  destruct (snd (iterM (replay ptrue (zip_dict ks qs) bm) (c_ops x) w2)) as [u|e]; [|apply C]. destruct C as [-> C]. exists x, ks, bm. split; [|split; [reflexivity|]].
  - constructor; [| |auto| |exact B3].
    + intros a' Ha' f Hf. rewrite Ha in Ha'. injection Ha' as <-. congruence.
    + congruence.
    + exists vq. now rewrite Eq.
  - rewrite Forall_forall in F. clear -C O2 B1 F W. induction C as [|o z os zs H C IH]; constructor; [|apply IH; intros; apply F; now right].
    destruct H as (y & k2 & [K1 K2] & K3). destruct (F o (or_introl eq_refl)) as (y0 & k0 & H0). destruct (O2 _ _ _ H0) as (k1 & [K4 K5] & K6).
    rewrite K1 in K4. injection K4 as <-. rewrite K2 in K5. injection K5 as <-. exists y, k0. split; [exact H0|].
    eapply copied_effect; eauto. now apply WF_sound.
Qed.
End Replay.

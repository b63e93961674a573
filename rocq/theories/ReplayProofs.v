(** The statements of C14, C18 and C19 for reachable worlds. *)
From Coq Require Import List ZArith String Bool Arith Lia.
From Verif Require Import Py RegisterModel RegisterSpec WorldModel WorldSpec WorldSpec3 WorldSpec4 WorldReg WorldInv WorldInv2 WorldInv3 WorldInv4 WorldInv5 WorldInv6 WorldInv7 WorldWf WorldWf2 WorldWf3 WorldProofs2 WorldCtx WorldCtx3 WorldOps WorldBuild WorldReplay WorldTrace WorldTrace2 WorldCtx2 WorldOwn WorldOwn2 WorldMeas WorldVars.
From Verif Require Import RegisterProofs.
Import ListNotations.
Local Open Scope nat_scope.

Lemma in_circuit_qubits x q : In q (circuit_qubits x) -> in_qreg x q.
Proof.
  unfold circuit_qubits, all_items. intros H. apply in_concat in H. destruct H as (l & Hl & Hq).
  apply in_map_iff in Hl. destruct Hl as ([n r] & <- & Hr). exists n, r. auto.
Qed.

Section Replays.
Variable P : Type.
Variable ptrue : P -> bool.
Variable peqb : P -> P -> bool.
Notation world := (world P).

Lemma reached_own (v : world) c x o y qs q : reaches P ptrue peqb (own_ok P) v -> small P v ->
  nth_error (w_circ v) c = Some x -> In o (c_ops x) -> nth_error (w_op v) o = Some y -> o_qubits y = Some qs -> In q qs -> in_qreg x q.
Proof.
  intros R S E Ho Ey Hq Hi. apply in_circuit_qubits. apply (OQ_reach P ptrue peqb v R S c x o y q E Ho Ey). unfold oqubits. now rewrite Hq.
Qed.

(** ** Renaming *)
Lemma zip_look ks : forall vs d q q', dget item_eqb q (fold_left (fun d p => dset item_eqb (fst p) (snd p) d) (combine ks vs) d) = Some q' ->
  renamed ks vs q q' \/ dget item_eqb q d = Some q'.
Proof.
  induction ks as [|k ks IH]; intros vs d q q' H; cbn in H; [auto|]. destruct vs as [|v vs]; cbn in H; [auto|].
  destruct (IH vs _ q q' H) as [(i & H1 & H2)|H0]; [left; exists (S i); auto|].
  destruct (item_eq_dec k q) as [<-|N].
  - rewrite Py.dget_dset_same in H0 by apply item_eqb_spec. left. exists 0. cbn. split; congruence.
  - rewrite Py.dget_dset_other in H0 by (auto using item_eqb_spec). now right.
Qed.
Lemma look_renamed ks vs q q' : look (zip_dict ks vs) q = Ok q' -> renamed ks vs q q'.
Proof.
  unfold look, zip_dict. destruct (dget item_eqb q _) as [u|] eqn:E; [|discriminate]. intros [= <-].
  destruct (zip_look ks vs [] q u E) as [H|H]; [exact H|discriminate].
Qed.
Lemma looks_renamed ks vs l : forall m, mapM (look (zip_dict ks vs)) l = Ok m -> Forall2 (renamed ks vs) l m.
Proof.
  induction l as [|q l IH]; cbn; intros m H; [injection H as <-; constructor|].
  destruct (look (zip_dict ks vs) q) as [u|] eqn:E; [|discriminate]. cbn in H. destruct (mapM (look (zip_dict ks vs)) l) as [m'|]; [|discriminate].
  injection H as <-. constructor; [now apply look_renamed|auto].
Qed.

Lemma items_len r l : items r = Ok l -> List.length l = stop r.
Proof.
  unfold items. destruct (is_range r); intros H; [injection H as <-; now rewrite map_length, seq_length|].
  apply mapM_length in H. now rewrite seq_length in H.
Qed.

(** ** Calling a circuit *)
Lemma view_items (w : world) c x ks vq : JQ P w -> SV P w -> small P w -> nth_error (w_circ w) c = Some x ->
  snd (qubits c w) = Ok vq -> items (core vq) = Ok ks -> ks = circuit_qubits x /\ stop (core vq) = List.length ks.
Proof.
  intros Hj Hs S E Eq Ei. destruct (WorldProofs2.view_q P w c x Hj S E) as (r & H1 & H2 & _); [left; eapply SV_okS; eauto|]. cbv zeta in H1.
  destruct (qubits_run P c w x Hj S E) as (r' & E' & R & _). rewrite H1 in E', Eq. cbn in Eq. injection Eq as <-. injection E' as _ <-.
  split; [congruence|]. symmetry. now apply items_len.
Qed.
Lemma resolved_same (w : world) ps ps' : WorldBuild.resolved P ptrue w KParam ps ps' -> same_params P (stands_for P ptrue w) w KParam ps ps'.
Proof.
  unfold WorldBuild.resolved, same_params. destruct (recording P w) as [d|]; [|auto]. intros (x & E & H). exists x. split; [exact E|].
  unfold takes_variables, parametric in *. cbn [has_params] in H. rewrite andb_true_r in H.
  destruct (c_par x); cbn [andb negb] in H.
  - destruct (c_vars x); cbn in H; (split; [intros [A B]; try congruence; auto|]); auto. intros N. exfalso. apply N. split; congruence.
  - split; [now intros []|auto].
Qed.
Lemma called_spec (w : world) t qs ba x : WF P w -> JQ P w -> SV P w -> small P w -> MI P w -> nth_error (w_circ w) t = Some x ->
  let r := call_circuit ptrue t qs ba w in snd r = Ok tt ->
  exists zs kbs, w_op (fst r) = w_op w ++ zs /\ List.length qs = List.length (circuit_qubits x) /\ bits_given P w t ba kbs /\
    Forall2 (fun o z => exists y k, nth_error (w_op w) o = Some y /\ nth_error (w_cls w) (o_cls y) = Some k /\ repeats P (stands_for P ptrue w) w (circuit_qubits x) qs kbs (k_kind k) y z) (c_ops x) zs /\
    (exists d, (exists a f, w_active w = Some a /\ nth_error (w_ctx w) a = Some (d, f)) /\ d <> t) /\
    effect P w (fst r) (seq (List.length (w_op w)) (List.length (c_ops x))).
Proof.
  intros W Hj Hs S Hm E. cbv zeta. intros Hok. destruct (call_circuit_spec P ptrue w t qs ba W) as (j & zs & A & B & F & C). cbv zeta in *.
  rewrite Hok in C. destruct C as (x0 & ks & bm & Cl & -> & C). rewrite (cl_circ _ _ _ _ _ _ _ _ Cl) in E. injection E as <-.
  destruct (cl_qubits _ _ _ _ _ _ _ _ Cl) as (vq & Eq & Ei & Ls). destruct (view_items w t x0 ks vq Hj Hs S (cl_circ _ _ _ _ _ _ _ _ Cl) Eq Ei) as [Ek Est].
  assert (Hb : exists kbs, bits_given P w t ba kbs /\ bm = option_map (fun p => zip_dict (fst p) (snd p)) kbs).
  { pose proof (cl_bits _ _ _ _ _ _ _ _ Cl) as Hb. unfold bits_given. destruct (bargs_list w ba) as [bs|].
    - destruct Hb as (vb & kb & H1 & H2 & H3 & H4). exists (Some (kb, bs)). split; [|exact H4]. exists vb, kb. split; [exact H1|]. split; [exact H2|]. split; [|reflexivity].
      rewrite H3. symmetry. eapply items_len; eauto.
    - exists None. auto. }
  destruct Hb as (kbs & Hb & ->). exists zs, kbs. split; [exact B|]. split; [congruence|]. split; [exact Hb|].
  rewrite Ek in C. split; [|split].
  - eapply Forall2_imp; [|exact C]. cbn beta. intros o z (y & k & [Ey Ec] & [c1 c2 c3 c4 c5 c6 c7 c8 c9]). exists y, k. split; [exact Ey|]. split; [exact Ec|].
    constructor; auto.
    + destruct c2 as (mq & H1 & H2). exists mq. split; [exact H2|now apply looks_renamed].
    + destruct (k_kind k); auto. now apply resolved_same.
    + destruct (k_kind k) eqn:Kk; auto. destruct kbs as [[kb bs]|]; cbn in c4 |- *; [|exact c4].
      destruct c4 as (mb & n & H1 & H2 & H3 & H4). exists mb. split; [|now apply looks_renamed]. rewrite H4. f_equal.
      destruct (Hm o y k Ey Ec Kk) as [Hc Hl]. destruct c2 as (mq & M1 & M2). destruct c5 as (k' & Sk & N).
      destruct Sk as (_ & _ & _ & _ & _ & Sk). assert (Nk : k_numq k' = k_numq k) by (destruct Sk as [Sk|([Sk|Sk] & _)]; congruence).
      rewrite Nk in N. unfold oqubits in N. rewrite M2 in N. pose proof (mapM_length _ _ _ H1) as L1. pose proof (mapM_length _ _ _ M1) as L2.
      assert (n = List.length mb); [|subst n; apply firstn_all].
      destruct (o_bits y) as [lb|]; [|cbn in L1; lia]. specialize (Hl lb eq_refl). unfold counted in Hc. rewrite L1.
      rewrite Hl in Hc. unfold oqubits in L2. destruct (k_numq k) as [m|]; [congruence|]. destruct (o_qubits y) as [ql|]; [|discriminate]. congruence.
  - pose proof (cl_active _ _ _ _ _ _ _ _ Cl) as Ha. pose proof (cl_other _ _ _ _ _ _ _ _ Cl) as Hot. destruct (w_active w) as [a|] eqn:Ea; [|congruence].
    pose proof (wf_act _ _ W a Ea) as La. destruct (nth_error (w_ctx w) a) as [[d f]|] eqn:Ex; [|apply nth_error_None in Ex; lia].
    exists d. split; [eauto|]. intros ->. exact (Hot a eq_refl f Ex).
  - exact A.
Qed.

Lemma effect_only (w w' : world) l : effect P w w' l -> only_adds P w w' l.
Proof.
  intros [H1 H2 H3 H4 H5 H6 H7 H8 H9 H10 H11]. constructor; auto.
  intros c y E. destruct (H3 c y E) as (y' & E' & R). exists y'. split; [exact E'|]. unfold recs in R.
  destruct (recording P w) as [d|]; [|split; [discriminate|auto]].
  destruct (Nat.eqb_spec d c) as [e|N]; split; auto; congruence.
Qed.
Lemma own_facts (v : world) : reaches P ptrue peqb (own_ok P) v -> small P v -> WF P v /\ JQ P v /\ SV P v /\ MI P v.
Proof.
  intros R S. split; [|split; [|split]].
  - eapply WF_reach; eauto.
  - eapply JQ_reach; eauto. eapply reaches_impl; [|exact R]. now intros w x [H _].
  - eapply SV_reach; eauto. eapply reaches_impl; [|exact R]. now intros w x (_ & H & _).
  - eapply MI_reach; eauto. eapply reaches_impl; [|exact R]. now intros w x (_ & _ & H).
Qed.
Lemma reached_replay (v : world) t qs ba x : reaches P ptrue peqb (own_ok P) v -> small P v -> nth_error (w_circ v) t = Some x ->
  snd (do_call ptrue peqb (CCall P t qs ba) v) = Ok tt ->
  exists d zs kbs, let v' := fst (do_call ptrue peqb (CCall P t qs ba) v) in
    current P v d /\ d <> t /\ List.length qs = List.length (circuit_qubits x) /\ bits_given P v t ba kbs /\
    w_op v' = w_op v ++ zs /\ only_adds P v v' (seq (List.length (w_op v)) (List.length zs)) /\ w_var v' = w_var v /\
    Forall2 (fun o z => exists y k, nth_error (w_op v) o = Some y /\ nth_error (w_cls v) (o_cls y) = Some k /\
      repeats P (stands_for P ptrue v) v (circuit_qubits x) qs kbs (k_kind k) y z) (c_ops x) zs.
Proof.
  intros R S E Hok. destruct (own_facts v R S) as (W & Hj & Hs & Hm). cbv zeta. cbn [do_call] in *. unfold call_plain in *.
  rewrite (bind_ok _ _ _ _ _ _ (get_circ_some P t v x E)) in *. destruct (c_par x); [discriminate Hok|].
  destruct (called_spec v t qs ba x W Hj Hs S Hm E Hok) as (zs & kbs & H1 & H2 & H3 & H4 & (d & H5 & H6) & H7).
  exists d, zs, kbs. assert (L : List.length zs = List.length (c_ops x)) by (pose proof (Forall2_len _ _ _ H4); lia). rewrite L.
  unfold current. repeat (split; [assumption|]). split; [now apply effect_only|]. split; [exact (ef_var _ _ _ _ H7)|assumption].
Qed.
Lemma reached_outside (v : world) t qs ba x : nth_error (w_circ v) t = Some x -> c_par x = false -> w_active v = None ->
  do_call ptrue peqb (CCall P t qs ba) v = (v, Err CircuitError).
Proof.
  intros E Hp Ha. cbn [do_call]. unfold call_plain. rewrite (bind_ok _ _ _ _ _ _ (get_circ_some P t v x E)), Hp. unfold call_circuit.
  rewrite (read_bind P), Ha. reflexivity.
Qed.
Lemma reached_itself (v : world) t qs ba x : nth_error (w_circ v) t = Some x -> c_par x = false -> current P v t ->
  do_call ptrue peqb (CCall P t qs ba) v = (v, Err TypeError).
Proof.
  intros E Hp (a & f & Ha & Ex). cbn [do_call]. unfold call_plain. rewrite (bind_ok _ _ _ _ _ _ (get_circ_some P t v x E)), Hp. unfold call_circuit.
  rewrite (read_bind P), Ha. unfold mbind, get_ctx. rewrite Ex. cbn. now rewrite Nat.eqb_refl.
Qed.
Lemma reached_qubits (v : world) t d qs ba x : reaches P ptrue peqb (own_ok P) v -> small P v -> nth_error (w_circ v) t = Some x -> c_par x = false ->
  current P v d -> d <> t -> List.length qs <> List.length (circuit_qubits x) ->
  snd (do_call ptrue peqb (CCall P t qs ba) v) = Err ValueError /\ only_adds P v (fst (do_call ptrue peqb (CCall P t qs ba) v)) [] /\
  w_op (fst (do_call ptrue peqb (CCall P t qs ba) v)) = w_op v.
Proof.
  intros R S E Hp (a & f & Ha & Ex) N L. destruct (own_facts v R S) as (W & Hj & Hs & _).
  cbn [do_call]. unfold call_plain. rewrite (bind_ok _ _ _ _ _ _ (get_circ_some P t v x E)), Hp. unfold call_circuit.
  rewrite (read_bind P), Ha. assert (G : get_ctx a v = (v, Ok (d, f))) by (unfold get_ctx; now rewrite Ex). rewrite (bind_ok _ _ _ _ _ _ G). cbn [fst snd].
  rewrite (proj2 (Nat.eqb_neq d t) N).
  destruct (WorldProofs2.view_q P v t x Hj S E) as (r & H1 & H2 & _); [left; eapply SV_okS; eauto|]. cbv zeta in H1.
  rewrite (bind_ok _ _ _ _ _ _ H1). rewrite <- (items_len _ _ H2), (proj2 (Nat.eqb_neq _ _) L). cbn [negb raise fst snd].
  split; [reflexivity|]. split; [|reflexivity]. apply effect_only.
  pose proof (effect_qubits P t v) as K. rewrite H1 in K. exact (proj1 K).
Qed.
Lemma reached_bits (v : world) t ba x kb bs : reaches P ptrue peqb (fun w y => classical_ok P ptrue peqb w y /\ keeps_registers P y) v -> small P v ->
  nth_error (w_circ v) t = Some x -> bits_given P v t ba (Some (kb, bs)) -> kb = circuit_bits x /\ List.length bs = List.length (circuit_bits x).
Proof.
  intros R S E. destruct (C13_b_of P ptrue peqb (classical_ok P ptrue peqb) v t x (IB_reach P ptrue peqb) R S E) as (r & w' & H1 & H2 & _).
  unfold bits_given. destruct (bargs_list v ba) as [l|]; [|discriminate]. intros (vb & kb' & H3 & H4 & H5 & [= <- <-]). rewrite H1 in H3. injection H3 as <-.
  rewrite H2 in H4. injection H4 as <-. auto.
Qed.

(** ** Calling a parametric circuit *)
Lemma reached_parametric (v : world) t ps qs ba x : reaches P ptrue peqb (own_ok P) v -> small P v -> nth_error (w_circ v) t = Some x ->
  snd (do_call ptrue peqb (CCallPar t ps qs ba) v) = Ok tt ->
  exists d zs kbs, let v' := fst (do_call ptrue peqb (CCallPar t ps qs ba) v) in
    current P v d /\ d <> t /\ List.length (c_vars x) <= List.length ps /\ List.length qs = List.length (circuit_qubits x) /\ bits_given P v t ba kbs /\
    w_op v' = w_op v ++ zs /\ only_adds P v v' (seq (List.length (w_op v)) (List.length zs)) /\
    assigned P (c_vars x) ps (w_var v) (w_var v') /\
    Forall2 (fun o z => exists y k, nth_error (w_op v) o = Some y /\ nth_error (w_cls v) (o_cls y) = Some k /\
      repeats P (given_value P ptrue v (c_vars x) ps) v (circuit_qubits x) qs kbs (k_kind k) y z) (c_ops x) zs.
Proof.
  intros R S E Hok. destruct (own_facts v R S) as (W & Hj & Hs & Hm). cbv zeta. cbn [do_call] in *. unfold call_parametric in *.
  rewrite (bind_ok _ _ _ _ _ _ (get_circ_some P t v x E)) in *. destruct (negb (c_par x)); [discriminate Hok|].
  rewrite (read_bind P) in *. destruct (w_active v) as [a|] eqn:Ea.
  2: { exfalso. unfold mbind, call_circuit, ret, read in Hok. cbn in Hok. rewrite Ea in Hok. discriminate Hok. }
  assert (Lv : List.length (c_vars x) <= List.length ps).
  { destruct (Nat.le_gt_cases (List.length (c_vars x)) (List.length ps)) as [L|L]; [exact L|exfalso].
    assert (H : exists w' e, set_vars (c_vars x) ps v = (w', Err e)).
    { clear -L. revert ps v L. induction (c_vars x) as [|n vs IH]; intros [|p ps] w L; cbn in *; try lia; [eexists _, _; reflexivity|].
      unfold mbind, var_put at 1. destruct (nth_error (w_var w) n) as [[s o]|]; cbn; [apply IH; lia|eexists _, _; reflexivity]. }
    destruct H as (w' & e & H). rewrite (bind_err _ _ _ _ _ _ H) in Hok. discriminate Hok. }
  destruct (set_vars_run P ptrue peqb (c_vars x) ps v) as (l & El & L & H1 & H2); [|exact Lv|].
  { apply Forall_forall. intros n Hn. eapply wf_vars; eauto. }
  specialize (H2 (proj1 (VD_reach P ptrue peqb _ v R) t x E)).
  rewrite (bind_ok _ _ _ _ _ _ El) in *. unfold mbind in Hok |- *. cbv beta iota in Hok |- *.
  set (u := set_exit (set_var v l) (w_exit (set_var v l) ++ [t])) in *.
  assert (Wu : WF P u).
  { destruct W. constructor; auto; unfold u; cbn in *.
    - intros c y n Hc Hn. rewrite L. eauto.
    - intros t' Ht'. apply in_app_or in Ht'. destruct Ht' as [Ht'|[<-|[]]]; [auto|]. apply nth_error_Some. congruence. }
  destruct (called_spec u t qs ba x Wu Hj Hs S Hm E Hok) as (zs & kbs & A1 & A2 & A3 & A4 & (d & A5 & A6) & A7).
  exists d, zs, kbs. assert (Lz : List.length zs = List.length (c_ops x)) by (pose proof (Forall2_len _ _ _ A4); lia). rewrite Lz.
  split; [exact A5|]. split; [exact A6|]. split; [exact Lv|]. split; [exact A2|]. split.
  { unfold bits_given in *. change (bargs_list u ba) with (bargs_list v ba) in A3. destruct (bargs_list v ba); [|exact A3]. destruct A3 as (vb & kb & B1 & B2).
    exists vb, kb. split; [|exact B2]. rewrite <- B1. symmetry. apply (bits_result P t v u x x E); auto; now left. }
  split; [exact A1|]. split; [|split].
  - destruct (effect_only _ _ _ A7). constructor; auto.
  - rewrite (ef_var _ _ _ _ A7). unfold u. cbn. split; [exact L|]. split; [|exact H1]. intros i n p Hi Hp. eauto.
  - eapply Forall2_imp; [|exact A4]. cbn beta. intros o z (y & k & Ey & Ek & [r1 r2 r3 r4 r5]). exists y, k. split; [exact Ey|]. split; [exact Ek|].
    constructor; auto. destruct (k_kind k); cbn in r3 |- *; auto. unfold recording in *. cbn in r3.
    match type of r3 with match ?m with _ => _ end => destruct m as [d'|] end; [|exact r3]. destruct r3 as (x' & Ex' & B1 & B2). exists x'.
    split; [exact Ex'|]. split; [exact B1|]. intros N. specialize (B2 N). eapply Forall2_imp; [|exact B2]. cbn beta.
    intros p q Hpq. destruct p as [r|n]; [exact Hpq|]. cbn in Hpq |- *. destruct Hpq as (s & r & Hn & Ht & ->).
    destruct (in_dec Nat.eq_dec n (c_vars x)) as [Hi|Hi].
    + left. destruct (In_nth_error _ _ Hi) as [i Hi']. destruct (nth_error ps i) as [p|] eqn:Ep.
      * destruct (H2 i n p Hi' Ep) as [s' Hs']. exists i, r. rewrite Hn in Hs'. injection Hs' as _ ->. auto.
      * exfalso. apply nth_error_None in Ep. assert (i < List.length (c_vars x)) by (apply nth_error_Some; congruence). lia.
    + right. split; [exact Hi|]. exists s, r. rewrite <- (H1 n Hi). auto.
Qed.
Lemma reached_numbers ok (v : world) c x o y k : reaches P ptrue peqb ok v ->
  nth_error (w_circ v) c = Some x -> c_par x = false -> In o (c_ops x) -> nth_error (w_op v) o = Some y ->
  nth_error (w_cls v) (o_cls y) = Some k -> k_kind k = KParam -> Forall (number P) (o_params y).
Proof.
  intros R E Hp Ho Ey Ek Kk. eapply Forall_impl; [|exact (NV_reach P ptrue peqb ok v R c x o y k E Hp Ho Ey Ek Kk)].
  intros [z|n] H; [exists z; reflexivity|destruct H].
Qed.
Lemma reached_too_few (v : world) t ps qs ba x : nth_error (w_circ v) t = Some x -> c_par x = true -> w_active v <> None ->
  List.length ps < List.length (c_vars x) -> (forall n, In n (c_vars x) -> n < List.length (w_var v)) ->
  snd (do_call ptrue peqb (CCallPar t ps qs ba) v) = Err IndexError /\
  exists l, fst (do_call ptrue peqb (CCallPar t ps qs ba) v) = set_var v l.
Proof.
  intros E Hp Ha L Hv. cbn [do_call]. unfold call_parametric. rewrite (bind_ok _ _ _ _ _ _ (get_circ_some P t v x E)). rewrite Hp. cbn [negb].
  rewrite (read_bind P). destruct (w_active v) as [a|]; [|congruence].
  assert (H : exists l, set_vars (c_vars x) ps v = (set_var v l, Err IndexError)).
  { clear -L Hv. revert ps v L Hv. induction (c_vars x) as [|n vs IH]; intros [|p ps] w L Hv; cbn in *; try lia.
    - exists (w_var w). now destruct w.
    - unfold mbind, var_put at 1. destruct (nth_error (w_var w) n) as [[s o]|] eqn:En.
      + cbn. destruct (IH ps (set_var w (set_nth n (s, Some p) (w_var w)))) as (l & El); [lia| |].
        * cbn. intros m Hm. rewrite set_nth_length. auto.
        * rewrite El. exists l. reflexivity.
      + apply nth_error_None in En. specialize (Hv n (or_introl eq_refl)). lia. }
  destruct H as (l & H). rewrite (bind_err _ _ _ _ _ _ H). split; [reflexivity|]. exists l. reflexivity.
Qed.
Lemma reached_few ok (v : world) t ps qs ba x : reaches P ptrue peqb ok v -> nth_error (w_circ v) t = Some x -> c_par x = true -> w_active v <> None ->
  List.length ps < List.length (c_vars x) ->
  snd (do_call ptrue peqb (CCallPar t ps qs ba) v) = Err IndexError /\
  exists l, fst (do_call ptrue peqb (CCallPar t ps qs ba) v) = set_var v l.
Proof. intros R E Hp Ha L. eapply reached_too_few; eauto. intros n Hn. eapply wf_vars; eauto. eapply WF_reach; eauto. Qed.
End Replays.

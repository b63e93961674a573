(** Proofs for C75: build_unitary on circuits built with the library. *)
From Coq Require Import List ZArith NArith String Bool Arith Lia Reals.
From Verif Require Import Py CRing Cplx SimModel SimSpec SimReal SimProofs SimProofs2 KernelSpec UnitaryModel UnitarySpec UnitaryProofs UnitaryProofs2 UnitaryProofs4 GateModel GateProofs CallSpec CallProofs3 RegisterModel
  WorldModel WorldSpec WorldSpec2 WorldSpec3 WorldSpec4 WorldInv WorldInv2 WorldInv3 WorldWf2 WorldWf3 WorldInv5 WorldInv6 WorldInv7 WorldProofs2 WorldArity2 ReplayProofs MakeProofs3 LinkModel LinkSpec LinkProofs CallSpec2 CallWorld MatrixModel MatrixSpec.
Import ListNotations.
Local Open Scope nat_scope.
Local Open Scope string_scope.

Lemma Forall2_in_right {A B} (Q : A -> B -> Prop) l l' : Forall2 Q l l' -> forall b, In b l' -> exists a, In a l /\ Q a b.
Proof.
  intros F. induction F as [|a b l l' H F IH]; intros b' []; [subst; exists a; split; [now left|exact H]|].
  destruct (IH b' H0) as (a' & A1 & A2). exists a'. split; [now right|exact A2].
Qed.
(** ** The loop *)
Lemma loop_views (w : world R) qs ids us : Forall2 (fun o u => view w o = Ok u) ids us ->
  forall s, unitary_ops w qs ids s = bu_loop Ccring (2 ^ N.of_nat (List.length qs))%N qs us s.
Proof.
  intros F. induction F as [|o u ids us H F IH]; intros s; [reflexivity|]. cbn [unitary_ops]. rewrite H. cbn [Py.bind bu_loop].
  destruct (match u with USingle _ nq m oq => _ | UControlled _ d m c t => _ end); [|reflexivity]. cbn [Py.bind]. apply IH.
Qed.
Lemma ops_app (w : world R) qs a b : forall s, unitary_ops w qs (a ++ b) s = Py.bind (unitary_ops w qs a s) (unitary_ops w qs b).
Proof.
  induction a as [|o a IH]; intros s; [reflexivity|]. cbn [unitary_ops app]. destruct (view w o); [|reflexivity]. cbn [Py.bind].
  destruct (bu_loop _ _ _ _ _); [|reflexivity]. cbn [Py.bind]. apply IH.
Qed.

(** ** The library *)
Lemma no_name n : ~ In n ["Identity"; "X"; "Y"; "Z"; "Hadamard"; "S"; "T"; "RX"; "RY"; "RZ"; "Rotation"] -> forall ps g, ~ stands1 n ps g.
Proof. intros H ps g S. apply H. inversion S; cbn; auto 12. Qed.
Lemma library_view k x f : nth_error library k = Some (x, f) -> handled (k_name x) ->
  ((k_kind x = KPlain \/ k_kind x = KParam) /\ forall ps g, f ps = Some g -> exists g1, g = GOne g1) \/
  (k_kind x = KCtrl /\ k_ncontrol x = Some 1 /\ exists g, f [] = Some (GC g)).
Proof.
  intros E H. unfold library in E.
  do 23 (destruct k as [|k];
    [cbn in E; injection E as <- <-;
     first [left; split; [now auto|]; intros ps g Hg; cbn in Hg; unfold par0, par1, par3 in Hg; destruct ps as [|a [|b [|c [|d ps]]]]; try discriminate Hg; injection Hg as <-; eexists; reflexivity
       | right; split; [reflexivity|]; split; [reflexivity|]; eexists; reflexivity
       | exfalso; destruct H as [(ps & g & S)|(m & g & Em & S)]; cbn in *; [inversion S|];
         first [discriminate Em|injection Em as <-; inversion S]] |]).
  destruct k; discriminate.
Qed.
Lemma refused_names n e : refused n e -> In (n, e) [("SWAP", ValueError); ("CSWAP", ValueError); ("CCX", ValueError); ("Measurement", TypeError);
  ("CRX", TypeError); ("CRY", TypeError); ("CRZ", TypeError); ("CRotation", TypeError)].
Proof. intros [| | | |m a ps g S]; cbn [In]; auto 8. inversion S; cbn; auto 12. Qed.
Lemma library_refused k x f e : nth_error library k = Some (x, f) -> refused (k_name x) e ->
  (k_kind x = KMeas /\ e = TypeError) \/ (k_kind x = KParCtrl /\ k_ncontrol x = Some 1 /\ e = TypeError) \/
  (k_kind x = KPlain /\ e = ValueError /\ (f [] = Some GSWAP \/ f [] = Some GCSWAP \/ f [] = Some GCCX)).
Proof.
  intros E H. apply refused_names in H. unfold library in E.
  do 23 (destruct k as [|k];
    [cbn in E; injection E as <- <-; cbn [k_name] in H; cbn [In] in H; repeat (destruct H as [[=]|H]); try contradiction; subst e; cbn; auto 10|]).
  destruct k; discriminate.
Qed.

Lemma kron_dim d m oq qs : forall a (A : N -> N -> Ccring), fst (kron_all Ccring d m oq qs (a, A)) = (a * d ^ N.of_nat (List.length qs))%N.
Proof.
  induction qs as [|q qs IH]; intros a A; cbn [kron_all fst List.length]; [now rewrite N.mul_1_r|].
  rewrite IH, Nat2N.inj_succ, N.pow_succ_r'. lia.
Qed.
Lemma too_large nq m oq q qs s : (1 < nq)%N -> apply_single Ccring (2 ^ N.of_nat (List.length (q :: qs)))%N s nq m oq (q :: qs) = Err ValueError.
Proof.
  intros H. unfold apply_single. pose proof (kron_dim (2 ^ nq)%N m oq qs (2 ^ nq)%N (if is_first q oq then m else eye Ccring)) as D.
  destruct (kron_all _ _ _ _ _ _) as [a A]. cbn in D. subst a.
  destruct (N.eqb_spec (2 ^ nq * (2 ^ nq) ^ N.of_nat (List.length qs)) (2 ^ N.of_nat (List.length (q :: qs)))) as [E|]; [|reflexivity]. exfalso.
  rewrite <- N.pow_mul_r, <- N.pow_add_r in E. apply N.pow_inj_r in E; [|lia]. cbn [List.length] in E. nia.
Qed.

Lemma no_matrix dim s (cs ts qs : list nat) M : apply_controlled Ccring dim s 2 (Some (eye Ccring)) cs ts qs = Ok M -> apply_controlled Ccring dim s 2 None cs ts qs = Err TypeError.
Proof.
  unfold apply_controlled. destruct (indices qs cs); [|discriminate]. cbn [Py.bind]. destruct (indices qs ts); [|discriminate]. cbn [Py.bind].
  now destruct (build_controlled_unitary _ _ _ _ _ _).
Qed.

Section Matrix.
Variable ptrue : R -> bool.
Variable peqb : R -> R -> bool.
Variable extra : list cls.
Variable p : prog R.
Variable v : world R.
Hypothesis Hex : executes R ptrue peqb (own_ok R) p (start R (library_classes ++ extra)%list).
Hypothesis Hvi : visits R ptrue peqb p (start R (library_classes ++ extra)%list) v.
Hypothesis Hsm : small R v.
Variables (c : nat) (x : circ).
Hypothesis Hc : nth_error (w_circ v) c = Some x.

Lemma own_in o y l q : In o (c_ops x) -> nth_error (w_op v) o = Some y -> o_qubits y = Some l -> In q l -> In q (circuit_qubits x).
Proof.
  intros Ho Ey El Hq. destruct (reached_own R ptrue peqb v c x o y l q (link_reaches ptrue peqb extra p v Hex Hvi) Hsm Hc Ho Ey El Hq) as (lb & r & Hr & Hi).
  unfold circuit_qubits, all_items. apply in_concat. exists (contents r). split; [|exact Hi]. apply in_map_iff. exists (lb, r). auto.
Qed.
Lemma qubits_ids o y l : In o (c_ops x) -> nth_error (w_op v) o = Some y -> o_qubits y = Some l -> exists is, l = map IQubit is /\ all_some qubit_id l = Some is.
Proof.
  intros Ho Ey El. destruct (read_qubits l) as (is & A & B); [|eauto]. rewrite Forall_forall. intros q Hq.
  pose proof (proj2 (link_nodup ptrue peqb extra p v Hex Hvi Hsm c x Hc)) as F. rewrite Forall_forall in F. now apply F, (own_in o y l).
Qed.

(** The control and the target of a controlled operation. *)
Lemma two_parts o y k : In o (c_ops x) -> nth_error (w_op v) o = Some y -> nth_error (w_cls v) (o_cls y) = Some k -> controlled k -> k_ncontrol k = Some 1 ->
  ready v x o y -> exists a b, a <> b /\ o_qubits y = Some [IQubit a; IQubit b] /\ o_control y = Some [IQubit a] /\ o_target y = Some [IQubit b].
Proof.
  intros Ho Ey Ek Kc Kn Rd. destruct Rd as [_ (l & El & Hl) _ _ _]. destruct (Hl k Ek) as (Nd & H2). specialize (H2 Kc).
  assert (Km : k_kind k <> KMeas) by (destruct Kc; congruence). specialize (Nd Km).
  destruct (qubits_ids o y l Ho Ey El) as (is & -> & _). rewrite map_length in H2. destruct is as [|a [|b [|]]]; try discriminate H2.
  assert (J : SI R v). { apply (joined_reach R ptrue peqb). eapply reaches_impl; [|exact (link_reaches ptrue peqb extra p v Hex Hvi)]. intros ? ? Q. apply Q. }
  destruct (proj1 (J o y k Ey Ek) Kc 1 _ Kn El) as (cl & tl & E1 & E2 & E3 & N1 & N2). cbn in N2. specialize (N1 ltac:(lia)). specialize (N2 ltac:(lia)).
  exists a, b. split; [intros ->; inversion Nd as [|? ? Q _]; apply Q; now left|]. split; [exact El|]. rewrite E1, E2.
  destruct cl as [|a' cl]; [congruence|]. destruct tl as [|b' tl]; [congruence|]. injection E3 as <- E3.
  destruct cl as [|? [|]]; cbn in E3; [now injection E3 as <- <-|discriminate E3|discriminate E3].
Qed.

Lemma view_handled o y k : In o (c_ops x) -> nth_error (w_op v) o = Some y -> nth_error (w_cls v) (o_cls y) = Some k -> handled (k_name k) -> ready v x o y ->
  forall s, seen_op v o = Some s -> exists u, view v o = Ok u /\ seen_as (mkSop Ccring (so_kind Ccring s) (so_qubits Ccring s) []) u.
Proof.
  intros Ho Ey Ek Hh Rd s Hs. unfold seen_op in Hs. rewrite Ey in Hs. unfold view. rewrite Ey. unfold seen_kind in Hs.
  destruct (nth_error library (o_cls y)) as [[k0 f]|] eqn:El; [|discriminate].
  destruct (class_kind ptrue peqb extra p v Hvi y k Ek k0 f El) as (Nm & Kd & Hp). specialize (Hp o Ey).
  rewrite Nm in Hh. destruct (library_view _ _ _ El Hh) as [(K & Hg)|(K & Kn & g & Hg)].
  - assert (E : match all_some number_of (o_params y) with Some ps => option_map gate_kind (f ps) | None => None end <> None /\
      (forall kk, match all_some number_of (o_params y) with Some ps => option_map gate_kind (f ps) | None => None end = Some kk -> so_kind Ccring s = kk) /\
      opt_all qubit_id (o_qubits y) = Some (so_qubits Ccring s)).
    { destruct K as [K|K]; rewrite K in Hs;
      (destruct (match all_some number_of (o_params y) with Some ps => option_map gate_kind (f ps) | None => None end) as [kk|]; [|discriminate]);
      (destruct (opt_all qubit_id (o_qubits y)); [|discriminate]); (destruct (opt_all bit_id (o_cond y)); [|discriminate]); injection Hs as <-;
      (split; [discriminate|]; split; [now intros ? [= <-]|reflexivity]). }
    destruct E as (E1 & E2 & E3). destruct (all_some number_of (o_params y)) as [ps|] eqn:Eps; [|congruence].
    destruct (f ps) as [g|] eqn:Eg; [|now destruct E1]. destruct (Hg ps g Eg) as (g1 & ->). cbn in E2. specialize (E2 _ eq_refl).
    exists (USingle Ccring 1 (matrix1 g1) (so_qubits Ccring s)). split.
    + destruct K as [K|K]; rewrite K, E3; reflexivity.
    + unfold seen_as. cbn. rewrite E2. auto.
  - rewrite K in Hs. rewrite Kd, K in Hp. specialize (Hp eq_refl). rewrite Hp in Hs. cbn [all_some] in Hs. rewrite Hg in Hs. cbn [option_map gate_kind] in Hs.
    assert (Kn' : k_ncontrol k = Some 1). { rewrite <- Kn. apply (control_kept R ptrue peqb _ p v (o_cls y) k0 Hvi (link_class _ _ _ _ El) k Ek). }
    destruct (two_parts o y k Ho Ey Ek) as (a & b & _ & Q & C1 & C2); auto; [left; congruence|].
    rewrite K, C1, C2, Hg. cbn. eexists. split; [reflexivity|]. rewrite Q in Hs. cbn in Hs. destruct (opt_all bit_id (o_cond y)); [|discriminate].
    injection Hs as <-. unfold seen_as. cbn. auto.
Qed.

Hypothesis Hne : circuit_qubits x <> [].

Lemma views_handled ids : incl ids (c_ops x) -> (forall o, In o ids -> exists y, nth_error (w_op v) o = Some y /\ ready v x o y) ->
  (forall o, In o ids -> exists n, of_name v o n /\ handled n) -> forall ss, all_some (seen_op v) ids = Some ss ->
  exists us, Forall2 (fun o u => view v o = Ok u) ids us /\ Forall2 seen_as (map (fun o => mkSop Ccring (so_kind Ccring o) (so_qubits Ccring o) []) ss) us.
Proof.
  induction ids as [|o ids IH]; intros Hi Hr Hh ss Hs; cbn in Hs.
  - injection Hs as <-. exists []. split; constructor.
  - destruct (seen_op v o) as [s|] eqn:Es; [|discriminate]. destruct (all_some (seen_op v) ids) as [ss'|] eqn:Ess; [|discriminate]. injection Hs as <-.
    destruct (IH (fun a H => Hi a (or_intror H)) (fun a H => Hr a (or_intror H)) (fun a H => Hh a (or_intror H)) ss' eq_refl) as (us & A & B).
    destruct (Hr o (or_introl eq_refl)) as (y & Ey & Rd). destruct (Hh o (or_introl eq_refl)) as (n & (y' & k & Ey' & Ek & <-) & Hn).
    rewrite Ey in Ey'. injection Ey' as <-.
    destruct (view_handled o y k (Hi o (or_introl eq_refl)) Ey Ek Hn Rd s Es) as (u & U1 & U2).
    exists (u :: us). split; constructor; auto.
Qed.

Lemma unitary_ids qs : all_some qubit_id (circuit_qubits x) = Some qs -> unitary_of v c = unitary_ops v qs (c_ops x) (eye Ccring).
Proof.
  intros Hq. destruct (C13_q R ptrue peqb v c x (link_reaches_q ptrue peqb extra p v Hex Hvi) Hsm Hc) as (r & w' & Eq & Ei & _).
  unfold unitary_of. rewrite Hc, Eq. cbn [snd]. rewrite Ei. cbn [Py.bind]. now rewrite Hq.
Qed.
Lemma has_op o : In o (c_ops x) -> exists y, nth_error (w_op v) o = Some y.
Proof.
  intros Ho. pose proof (wf_ops _ _ (WF_reach _ _ _ _ _ (link_reaches ptrue peqb extra p v Hex Hvi)) c x o Hc Ho) as L.
  destruct (nth_error (w_op v) o) eqn:E; [eauto|]. apply nth_error_None in E. lia.
Qed.

(** Circuits of handled operations. *)
Lemma matrix_views : (forall o y, In o (c_ops x) -> nth_error (w_op v) o = Some y -> ready v x o y) ->
  (forall o, In o (c_ops x) -> exists n, of_name v o n /\ handled n) ->
  exists st us, seen v c = Some st /\ circuit_qubits x = map IQubit (sc_qubits Ccring st) /\ Forall2 (shown v) (c_ops x) (sc_ops Ccring st) /\
    wf_circ st /\ unitary_circ st /\ unitary_of v c = build_unitary Ccring (sc_qubits Ccring st) us /\ Forall2 seen_as (sc_ops Ccring (unconditioned st)) us.
Proof.
  intros Hr Hh. destruct (link_seen ptrue peqb extra p v Hex Hvi Hsm c x Hc Hr Hne) as (st & S1 & S2 & S3 & S4 & S5).
  destruct (seen_qubits ptrue peqb v c x st (link_reaches_q ptrue peqb extra p v Hex Hvi) Hsm Hc S1) as (Q & O).
  destruct (views_handled (c_ops x) (incl_refl _)) with (ss := sc_ops Ccring st) as (us & V1 & V2); auto.
  { intros o Ho. destruct (has_op o Ho) as (y & Ey). eauto. }
  exists st, us. do 5 (split; [assumption|]). split; [|exact V2]. rewrite (unitary_ids _ Q). unfold build_unitary. now apply loop_views.
Qed.

Lemma prefix_ok pre qs : all_some qubit_id (circuit_qubits x) = Some qs -> incl pre (c_ops x) ->
  (forall a y, In a pre -> nth_error (w_op v) a = Some y -> ready v x a y) ->
  (forall a, In a pre -> exists m, of_name v a m /\ handled m) -> exists s, unitary_ops v qs pre (eye Ccring) = Ok s.
Proof.
  intros Eq Hip Hr Hh. destruct (link_nodup ptrue peqb extra p v Hex Hvi Hsm c x Hc) as (Nd & Fq). destruct (read_qubits _ Fq) as (qs' & Eq' & Hq).
  rewrite Eq in Eq'. injection Eq' as <-. assert (Ndq : NoDup qs) by (rewrite Hq in Nd; exact (NoDup_map_inv _ _ Nd)).
  destruct (all_some_rel (seen_op v) (fun a s => shown v a s /\ forall c0, sc_qubits Ccring c0 = qs -> wf_op c0 s /\ unitary_kind (so_kind Ccring s)) pre) as (ss & Ess & F).
    { intros a Ha. destruct (has_op a (Hip a Ha)) as (ya & Eya). apply (link_op ptrue peqb extra p v Hex Hvi Hsm c x Hc qs a ya); auto.
  }
    destruct (views_handled pre Hip) with (ss := ss) as (us & V1 & V2); auto.
    { intros a Ha. destruct (has_op a (Hip a Ha)) as (ya & Eya). exists ya. split; [exact Eya|]. now apply Hr. }
    rewrite (loop_views _ _ _ _ V1).
    pose (st := unconditioned (mkScirc Ccring qs ss)).
    destruct (build_operator Ccring st us) as (M & EM & _).
    - apply wf_unc. split; [exact Ndq|]. split; [cbn; intros ->; now rewrite Hq in Hne|]. cbn. clear -F. intros s Hs.
      induction F as [|a b l l' [_ H] F IH]; [destruct Hs|]. destruct Hs as [<-|Hs]; [now apply (H (mkScirc Ccring qs (b :: l')))|].
      destruct (IH Hs) as (w & W). now exists w.
    - exact V2.
    - apply unc_unconditional.
    - exists M. exact EM.
Qed.
(** The first operation that is refused. *)
Theorem matrix_refused pre o post n e : c_ops x = (pre ++ o :: post)%list ->
  (forall a y, In a (pre ++ [o]) -> nth_error (w_op v) a = Some y -> ready v x a y /\ o_qubits y <> Some []) ->
  (forall a, In a pre -> exists m, of_name v a m /\ handled m) -> of_name v o n -> refused n e -> unitary_of v c = Err e.
Proof.
  intros Eops Hr Hh (y & k & Ey & Ek & <-) Hn.
  destruct (link_nodup ptrue peqb extra p v Hex Hvi Hsm c x Hc) as (Nd & Fq). destruct (read_qubits _ Fq) as (qs & Eq & Hq).
  assert (Ndq : NoDup qs) by (rewrite Hq in Nd; exact (NoDup_map_inv _ _ Nd)).
  rewrite (unitary_ids _ Eq), Eops, ops_app.
  assert (Hi : incl (pre ++ [o]) (c_ops x)). { intros a. rewrite Eops, !in_app_iff. cbn. tauto. }
  assert (Hip : incl pre (c_ops x)) by (intros a Ha; apply Hi, in_app_iff; now left).
  destruct (prefix_ok pre qs Eq Hip) as (s & Es); auto.
  { intros a ya Ha Eya. apply Hr; [apply in_app_iff; now left|exact Eya]. }
  rewrite Es. cbn [Py.bind unitary_ops].
  assert (Ho : In o (c_ops x)) by (apply Hi, in_app_iff; right; now left).
  destruct (Hr o y) as (Rd & Hnn); [apply in_app_iff; right; now left|exact Ey|].
  unfold view. rewrite Ey. pose proof (rd_class _ _ _ _ Rd) as Rc.
  destruct (nth_error library (o_cls y)) as [[k0 f]|] eqn:El; [|apply nth_error_None in El; lia].
  destruct (class_kind ptrue peqb extra p v Hvi y k Ek k0 f El) as (Nm & Kd & Hp). specialize (Hp o Ey). rewrite Nm in Hn.
  assert (Hqs : exists q0 qr, qs = q0 :: qr) by (destruct qs as [|q0 qr]; [now rewrite Hq in Hne|eauto]).
  destruct (library_refused _ _ _ _ El Hn) as [(K & ->)|[(K & Kn & ->)|(K & -> & G)]].
  - rewrite K. destruct (rd_qubits _ _ _ _ Rd) as ([|q l] & Eql & _); [congruence|]. now rewrite Eql.
  - assert (Kn' : k_ncontrol k = Some 1). { rewrite <- Kn. apply (control_kept R ptrue peqb _ p v (o_cls y) k0 Hvi (link_class _ _ _ _ El) k Ek). }
    destruct (two_parts o y k Ho Ey Ek) as (a & b & Nab & Q & C1 & C2); auto; [right; congruence|].
    rewrite K, C1, C2. cbn [opt_all all_some qubit_id option_map or_nothing Py.bind bu_loop].
    assert (Hin : forall q, In q [a; b] -> exists t, nth_error qs (N.to_nat t) = Some q).
    { intros q Hq'. assert (Hin : In (IQubit q) (circuit_qubits x)) by (apply (own_in o y _ _ Ho Ey Q); destruct Hq' as [<-|[<-|[]]]; cbn; auto).
      rewrite Hq in Hin. apply map_IQubit_in in Hin. apply In_nth_error in Hin. destruct Hin as (i & Hi'). exists (N.of_nat i). now rewrite Nat2N.id. }
    destruct (Hin a ltac:(now left)) as (ta & Ta). destruct (Hin b ltac:(right; now left)) as (tb & Tb).
    destruct (apply_controlled_ok Ccring qs [a] b [ta] tb (eye Ccring) s Ndq) as (M & EM & _).
    { repeat constructor; auto. }
    { cbn. constructor; [intros [<-|[]]; congruence|]. constructor; [intros []|constructor]. }
    { reflexivity. }
    rewrite (no_matrix _ _ _ _ _ _ EM). reflexivity.
  - rewrite K in Kd. rewrite Kd in Hp. specialize (Hp eq_refl). rewrite K, Hp. cbn [all_some].
    destruct (rd_qubits _ _ _ _ Rd) as (l & Eql & _). destruct (qubits_ids o y l Ho Ey Eql) as (is & -> & Eis). rewrite Eql. cbn [opt_all]. rewrite Eis. cbn [option_map].
    destruct Hqs as (q0 & qr & ->).
    destruct G as [G|[G|G]]; rewrite G; cbn [Py.bind bu_loop]; rewrite too_large by lia; reflexivity.
Qed.
Theorem matrix_variable pre o post y k l : c_ops x = (pre ++ o :: post)%list ->
  (forall a z, In a pre -> nth_error (w_op v) a = Some z -> ready v x a z) -> (forall a, In a pre -> exists m, of_name v a m /\ handled m) ->
  nth_error (w_op v) o = Some y -> nth_error (w_cls v) (o_cls y) = Some k -> handled (k_name k) -> k_kind k = KParam -> o_cls y < List.length library ->
  o_qubits y = Some l -> (exists n, In (PVar n) (o_params y)) -> unitary_of v c = Err TypeError.
Proof.
  intros Eops Hr Hh Ey Ek Hn Kk Hl El (n & Hv). destruct (link_nodup ptrue peqb extra p v Hex Hvi Hsm c x Hc) as (Nd & Fq).
  destruct (read_qubits _ Fq) as (qs & Eq & Hq). rewrite (unitary_ids _ Eq), Eops, ops_app.
  assert (Hi : incl (pre ++ [o]) (c_ops x)). { intros a. rewrite Eops, !in_app_iff. cbn. tauto. }
  destruct (prefix_ok pre qs Eq) as (s & Es); auto; [intros a Ha; apply Hi, in_app_iff; now left|].
  rewrite Es. cbn [Py.bind unitary_ops]. assert (Ho : In o (c_ops x)) by (apply Hi, in_app_iff; right; now left).
  unfold view. rewrite Ey. destruct (nth_error library (o_cls y)) as [[k0 f]|] eqn:Elib; [|apply nth_error_None in Elib; lia].
  destruct (class_kind ptrue peqb extra p v Hvi y k Ek k0 f Elib) as (Nm & Kd & _). rewrite <- Kd, Kk.
  destruct (qubits_ids o y l Ho Ey El) as (is & -> & Eis). rewrite El. cbn [opt_all]. rewrite Eis. cbn [option_map].
  destruct (all_some number_of (o_params y)) as [ps|] eqn:Eps; [|reflexivity]. exfalso. clear -Eps Hv. revert ps Eps.
  induction (o_params y) as [|q l IH]; intros ps; [destruct Hv|]. cbn. destruct Hv as [->|Hv]; [discriminate|].
  destruct q; [|discriminate]. cbn. destruct (all_some number_of l); [|discriminate]. intros _. eapply IH; eauto.
Qed.
End Matrix.

Theorem matrix_operator ptrue peqb extra p (v : world R) c x :
  executes R ptrue peqb (own_ok R) p (start R (library_classes ++ extra)%list) ->
  visits R ptrue peqb p (start R (library_classes ++ extra)%list) v -> small R v ->
  nth_error (w_circ v) c = Some x -> (forall o y, In o (c_ops x) -> nth_error (w_op v) o = Some y -> ready v x o y) -> circuit_qubits x <> [] ->
  (forall o, In o (c_ops x) -> exists n, of_name v o n /\ handled n) ->
  exists st M, seen v c = Some st /\ circuit_qubits x = map IQubit (sc_qubits Ccring st) /\ Forall2 (shown v) (c_ops x) (sc_ops Ccring st) /\
    measurement_free st /\ unitary_of v c = Ok M /\ operator false (unconditioned st) M /\ unitary (2 ^ SimModel.num_qubits Ccring st) M.
Proof.
  intros He Hv Hs Hc Hr Hne Hh. destruct (matrix_views ptrue peqb extra p v He Hv Hs c x Hc Hne Hr Hh) as (st & us & S1 & S2 & S3 & S4 & S5 & E & F).
  destruct (build_operator Ccring (unconditioned st) us (wf_unc st S4) F (unc_unconditional st)) as (M & EM & OM).
  assert (Hm : measurement_free (unconditioned st)).
  { intros o Ho. clear -F Ho. induction F as [|o' u ops us H _ IH]; [destruct Ho|].
    destruct Ho as [->|Ho]; [|auto]. unfold seen_as in H. destruct (so_kind Ccring o); try reflexivity. destruct u; contradiction. }
  exists st, M. do 3 (split; [assumption|]). split.
  { intros o Ho. exact (Hm (mkSop Ccring (so_kind Ccring o) (so_qubits Ccring o) []) (in_map (fun o => mkSop Ccring (so_kind Ccring o) (so_qubits Ccring o) []) _ _ Ho)). }
  split; [rewrite E; exact EM|]. split; [exact OM|].
  exact (operator_unitary Ccring false (unconditioned st) (wf_unc st S4) Hm (unc_unconditional st) M (unc_ops st unitary_kind S5) OM).
Qed.

(** The first column is the simulated state. *)
Theorem matrix_simulates ptrue peqb extra p (v : world R) c x (rnd : nat -> R) m :
  executes R ptrue peqb (own_ok R) p (start R (library_classes ++ extra)%list) ->
  visits R ptrue peqb p (start R (library_classes ++ extra)%list) v -> small R v ->
  nth_error (w_circ v) c = Some x -> (forall o y, In o (c_ops x) -> nth_error (w_op v) o = Some y -> ready v x o y /\ (o_cond y = None \/ o_cond y = Some [])) ->
  1 <= List.length (circuit_qubits x) <= 30 ->
  (forall o, In o (c_ops x) -> exists n, of_name v o n /\ handled n) ->
  exists st M u, seen v c = Some st /\ unitary_of v c = Ok M /\ simulate_C rnd st false false m = (m, Ok (SVec Ccring u)) /\
    forall i, (i < 2 ^ N.of_nat (List.length (circuit_qubits x)))%N -> u i = M i 0%N.
Proof.
  intros He Hv Hs Hc Hr Hn Hh.
  assert (Hr' : forall o y, In o (c_ops x) -> nth_error (w_op v) o = Some y -> ready v x o y) by (intros o y Ho Ey; now apply (Hr o y)).
  assert (Hne : circuit_qubits x <> []) by (intros H; rewrite H in Hn; cbn in Hn; lia).
  destruct (matrix_views ptrue peqb extra p v He Hv Hs c x Hc Hne Hr' Hh) as (st & us & S1 & S2 & S3 & S4 & S5 & E & F).
  assert (Hun : unconditional st).
  { intros s Hs'. destruct (Forall2_in_right _ _ _ S3 s Hs') as (o & Ho & (y & k & qs & Ey & _ & _ & _ & Hcd & _)).
    destruct (proj2 (Hr o y Ho Ey)) as [Q|Q]; rewrite Q in Hcd; [exact Hcd|]. symmetry in Hcd. now apply map_eq_nil in Hcd. }
  rewrite (unc_same st Hun) in F.
  assert (L : N.of_nat (List.length (circuit_qubits x)) = SimModel.num_qubits Ccring st) by (unfold SimModel.num_qubits; now rewrite S2, map_length).
  destruct (build_unitary_simulates Ccring R Cgtb Cis0 Cinvsqrt rnd st us m S4 F Hun) as (M & u & EM & Eu & Hu & _); [rewrite <- L; lia|].
  exists st, M, u. split; [exact S1|]. split; [rewrite E; exact EM|]. split; [exact Eu|]. rewrite L. intros i Hi. symmetry. now apply Hu.
Qed.

(** Calling the circuit. *)
Theorem matrix_called ptrue peqb extra p (v : world R) t x d xd sd ids ba (rnd : nat -> R) :
  executes R ptrue peqb (own_ok R) p (start R (library_classes ++ extra)%list) ->
  visits R ptrue peqb p (start R (library_classes ++ extra)%list) v -> small R v ->
  nth_error (w_circ v) t = Some x -> (forall o y, In o (c_ops x) -> nth_error (w_op v) o = Some y -> ready v x o y) -> circuit_qubits x <> [] ->
  (forall o, In o (c_ops x) -> exists n, of_name v o n /\ handled n) ->
  nth_error (w_circ v) d = Some xd -> recording R v = Some d -> seen v d = Some sd -> List.length (circuit_qubits xd) <= 30 ->
  NoDup ids -> (forall q, In q ids -> In (IQubit q) (circuit_qubits xd)) ->
  snd (do_call ptrue peqb (CCall R t (map IQubit ids) ba) v) = Ok tt ->
  exists M ts sd', unitary_of v t = Ok M /\ at_positions sd ids ts /\
    seen (fst (do_call ptrue peqb (CCall R t (map IQubit ids) ba) v)) d = Some sd' /\
    continues (fun c => simulate_C rnd c false false) sd sd' (acts_on false (SimModel.num_qubits Ccring sd) M ts).
Proof.
  intros He Hv Hs Hc Hr Hne Hh Hd Hrec Hsd Hn Nd Hin Hok.
  destruct (matrix_operator ptrue peqb extra p v t x He Hv Hs Hc Hr Hne Hh) as (st & M & S1 & _ & _ & Hm & E & OM & _).
  destruct (call_applied ptrue peqb extra p v t x d xd sd ids ba rnd He Hv Hs Hc Hr Hne Hd Hrec Hsd Hn Nd Hin Hok) as (st' & S1' & _ & Ha).
  rewrite S1 in S1'. injection S1' as <-. destruct (Ha Hm) as (sd0 & sd' & ts & D1 & D2 & _ & D4 & D5). rewrite Hsd in D1. injection D1 as <-.
  exists M, ts, sd'. split; [exact E|]. split; [exact D4|]. split; [exact D2|]. exact (proj2 (proj2 (D5 false) M OM)).
Qed.

(** ** Operations made from a circuit with one qubit *)
Lemma custom_continues rnd sd M q t : NoDup (sc_qubits Ccring sd) -> (SimModel.num_qubits Ccring sd <= 30)%N ->
  nth_error (sc_qubits Ccring sd) (N.to_nat t) = Some q ->
  continues (fun c => simulate_C rnd c false false) sd (custom_after sd M q) (acts_on false (SimModel.num_qubits Ccring sd) M [t]).
Proof.
  intros Nd Hn Ht m. unfold simulate_C, SimModel.simulate. cbn [custom_after sc_qubits sc_ops].
  destruct (sc_qubits Ccring sd) as [|q0 ql] eqn:Eq; [now destruct (N.to_nat t)|].
  rewrite (run_pure_same Ccring R Cgtb Cis0 Cinvsqrt rnd sd (custom_after sd M q)) by reflexivity.
  rewrite run_pure_app. destruct (SimModel.run_pure _ _ _ _ _ _ sd false (sc_ops Ccring sd) m (zero_state Ccring)) as [m' [u|e]]; cbn -[SimModel.run_pure]; [|reflexivity].
  set (o := mkSop Ccring (KOther Ccring 1 M) (Some [q]) []).
  assert (Hw : wf_op sd o).
  { exists [q]. split; [reflexivity|]. split; [intros a [<-|[]]; rewrite Eq; exact (nth_error_In _ _ Ht)|]. split; [intros _; constructor; [intros []|constructor]|].
    split; [intros a [= <-]; reflexivity|reflexivity]. }
  destruct (run_pure_runs Ccring R Cgtb Cis0 Cinvsqrt rnd sd false [o] m' Hn) with (v := u) as (w & E & Rn).
  { intros a [<-|[]]. split; [exact Hw|reflexivity]. }
  exists w. rewrite E. split; [reflexivity|]. intros i Hi.
  inversion Rn as [| o1 ops1 a1 b1 Z1 R1 | o1 ops1 ts1 a1 v1 b1 Z1 (qs & P0 & P1) G1 R1]; subst.
  { destruct Z1 as (b & [] & _). }
  injection P0 as <-. inversion P1 as [|? t' ? ? Q1 Q2]; subst. inversion Q2; subst.
  assert (t' = t). { apply N2Nat.inj. rewrite Eq in Q1. eapply (proj1 (NoDup_nth_error _) Nd); [apply nth_error_Some; congruence|congruence]. }
  subst t'. inversion R1 as [a2 b2 W| |]; subst. rewrite W by exact Hi. now rewrite G1.
Qed.

Theorem matrix_custom ptrue peqb extra p (v : world R) t x d xd sd q ba (rnd : nat -> R) :
  executes R ptrue peqb (own_ok R) p (start R (library_classes ++ extra)%list) ->
  visits R ptrue peqb p (start R (library_classes ++ extra)%list) v -> small R v ->
  nth_error (w_circ v) t = Some x -> (forall o y, In o (c_ops x) -> nth_error (w_op v) o = Some y -> ready v x o y) -> List.length (circuit_qubits x) = 1 ->
  (forall o, In o (c_ops x) -> exists n, of_name v o n /\ handled n) ->
  nth_error (w_circ v) d = Some xd -> recording R v = Some d -> seen v d = Some sd -> List.length (circuit_qubits xd) <= 30 ->
  In (IQubit q) (circuit_qubits xd) ->
  snd (do_call ptrue peqb (CCall R t [IQubit q] ba) v) = Ok tt ->
  exists M sd', unitary_of v t = Ok M /\ seen (fst (do_call ptrue peqb (CCall R t [IQubit q] ba) v)) d = Some sd' /\
    continues (fun c => simulate_C rnd c false false) sd' (custom_after sd M q) (fun u => u).
Proof.
  intros He Hv Hs Hc Hr H1 Hh Hd Hrec Hsd Hn Hin Hok.
  assert (Hne : circuit_qubits x <> []) by (intros H; rewrite H in H1; discriminate).
  destruct (matrix_operator ptrue peqb extra p v t x He Hv Hs Hc Hr Hne Hh) as (st & M & S1 & _ & _ & Hm & E & OM & _).
  destruct (call_applied ptrue peqb extra p v t x d xd sd [q] ba rnd He Hv Hs Hc Hr Hne Hd Hrec Hsd Hn) as (st' & S1' & _ & Ha); auto.
  { constructor; [intros []|constructor]. }
  { intros a [<-|[]]. exact Hin. }
  rewrite S1 in S1'. injection S1' as <-. destruct (Ha Hm) as (sd0 & sd' & ts & D1 & D2 & D3 & D4 & D5). rewrite Hsd in D1. injection D1 as <-.
  exists M, sd'. split; [exact E|]. split; [exact D2|]. pose proof (proj2 (proj2 (D5 false) M OM)) as C1.
  unfold at_positions in D4. inversion D4 as [|? t0 ? ? T1 T2]; subst. inversion T2; subst.
  destruct (seen_qubits ptrue peqb v d xd sd (link_reaches_q ptrue peqb extra p v He Hv) Hs Hd Hsd) as (Q & _).
  destruct (link_nodup ptrue peqb extra p v He Hv Hs d xd Hd) as (Ndq & Fq). destruct (read_qubits _ Fq) as (qs & Eqs & Hq). rewrite Q in Eqs. injection Eqs as <-.
  assert (Nds : NoDup (sc_qubits Ccring sd)) by (rewrite Hq in Ndq; exact (NoDup_map_inv _ _ Ndq)).
  assert (Hn' : (SimModel.num_qubits Ccring sd <= 30)%N) by (unfold SimModel.num_qubits; rewrite <- (map_length IQubit), <- Hq; lia).
  pose proof (custom_continues rnd sd M q t0 Nds Hn' T1) as C2. intros m. specialize (C1 m). specialize (C2 m). cbn beta in C1, C2.
  assert (L : SimModel.num_qubits Ccring sd' = SimModel.num_qubits Ccring sd) by (unfold SimModel.num_qubits; now rewrite D3).
  destruct (simulate_C rnd sd false false m) as [m' [[|u|u]|e]].
  - contradiction.
  - destruct C1 as (w1 & -> & W1). destruct C2 as (w2 & -> & W2). exists w2. split; [reflexivity|]. rewrite L. intros i Hi. now rewrite W1, W2.
  - contradiction.
  - now rewrite C1, C2.
Qed.

(** ** Names *)
Lemma names_decided k x f : nth_error library k = Some (x, f) ->
  (handled (k_name x) /\ forall e, ~ refused (k_name x) e) \/ (~ handled (k_name x) /\ exists e, refused (k_name x) e).
Proof.
  intros E.
  assert (N : forall n, (forall m, n <> "C" ++ m) -> forall ps g, stands1 n ps g -> n <> "Measurement" -> n <> "SWAP" -> handled n /\ forall e, ~ refused n e).
  { intros n Hn ps g S H1 H2. split; [left; eauto|]. intros e H. inversion H as [| | | |m a qs h Q]; subst;
      [congruence|now apply (Hn "SWAP")|now apply (Hn "CX")|congruence|now apply (Hn m)]. }
  assert (C : forall m g, stands1 m [] g -> handled ("C" ++ m) /\ forall e, ~ refused ("C" ++ m) e).
  { intros m g S. split; [right; eauto|]. intros e H. apply refused_names in H. inversion S; subst; cbn in H; repeat (destruct H as [[=]|H]); contradiction. }
  assert (Q : forall m a ps g, stands1 m (a :: ps) g -> ~ handled ("C" ++ m) /\ exists e, refused ("C" ++ m) e).
  { intros m a ps g S. split; [|exists TypeError; econstructor; eauto]. intros [(qs & h & S')|(m' & h & Em & S')].
    - inversion S'; subst; inversion S; subst; discriminate.
    - injection Em as <-. inversion S; subst; inversion S'. }
  unfold library in E.
  do 23 (destruct k as [|k];
    [cbn in E; injection E as <- <-; cbn [k_name];
     first [ left; refine (N _ _ [] _ _ _ _); [intros m [=]|constructor|discriminate|discriminate]
           | left; refine (N _ _ [0%R] _ _ _ _); [intros m [=]|constructor|discriminate|discriminate]
           | left; refine (N _ _ [0%R; 0%R; 0%R] _ _ _ _); [intros m [=]|constructor|discriminate|discriminate]
           | left; first [refine (C "X" _ _)|refine (C "Y" _ _)|refine (C "Z" _ _)|refine (C "Hadamard" _ _)]; constructor
           | right; first [refine (Q "RX" 0%R [] _ _)|refine (Q "RY" 0%R [] _ _)|refine (Q "RZ" 0%R [] _ _)|refine (Q "Rotation" 0%R [0%R; 0%R] _ _)]; constructor
           | right; split; [|eexists; constructor]; intros [(qs & h & S)|(m & h & Em & S)]; [inversion S|]; first [discriminate Em|injection Em as <-; inversion S] ] |]).
  destruct k; discriminate.
Qed.

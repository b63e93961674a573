(** Circuits built with the library: their QIR programs mean what simulating them does. *)
From Coq Require Import List ZArith NArith String Bool Arith Reals Lia.
From Verif Require Import Py CRing Cplx SimModel SimSpec SimReal SimProofs SimProofs2 GateModel StateModel QirModel QirSpec QirSemSpec QirMeantSpec QirSemProofs QirSemProofs2 QirSemProofs3
  RegisterModel WorldModel WorldSpec WorldSpec4 WorldInv WorldInv2 WorldInv6 LinkModel LinkSpec LinkProofs ExportModel ExportSpec ExportProofs ExportProofs2 QirCircSpec.
Import ListNotations.
Local Open Scope nat_scope.

Lemma place_all rs q i : one_used rs -> at_place rs q i -> nth_error (all_items rs) i = Some q.
Proof.
  intros H (l & r & Hi & Hn). assert (G : forall rs', incl rs' rs -> In (l, r) rs' -> nth_error (all_items rs') i = Some q).
  { induction rs' as [|[l0 r0] rs' IH]; intros Hin Hr; [contradiction|]. unfold all_items. cbn [map List.concat snd].
    destruct (contents r0) as [|z zs] eqn:E.
    - cbn [app]. apply IH; [intros y Hy; apply Hin; now right|]. destruct Hr as [Hr|Hr]; [|exact Hr]. injection Hr as -> ->. rewrite E in Hn. destruct i; discriminate Hn.
    - assert (Er : (l0, r0) = (l, r)).
      { apply H; [apply Hin; now left|apply Hin; exact Hr|cbn; congruence|cbn; intros E'; rewrite E' in Hn; destruct i; discriminate Hn]. }
      injection Er as -> ->. rewrite <- E. rewrite nth_error_app1; [exact Hn|]. apply nth_error_Some. congruence. }
  apply G; [apply incl_refl|exact Hi].
Qed.

Section Means.
Variable ptrue : R -> bool.
Variable peqb : R -> R -> bool.
Variable more : list cls.
Variable p : prog R.
Variable v : world R.
Hypothesis Hex : executes R ptrue peqb (both_ok R ptrue peqb) p (start R (library_classes ++ more)%list).
Hypothesis Hvi : visits R ptrue peqb p (start R (library_classes ++ more)%list) v.
Hypothesis Hsm : small R v.
Variables (c : nat) (x : circ).
Hypothesis Hc : nth_error (w_circ v) c = Some x.
Variable pnum : param R -> bool.
Variable dbl : param R -> R.
Hypothesis Hdbl : forall a, dbl (PNum a) = a.
Variables gates meas : list nat.
Hypothesis Hops : c_ops x = (gates ++ meas)%list.
Hypothesis Hg : forall o y, In o gates -> nth_error (w_op v) o = Some y -> base_op pnum v x o y.
Hypothesis Hm : forall o y, In o meas -> nth_error (w_op v) o = Some y -> meas_op v x o y.
Hypothesis Hq1 : one_used (s_regs (c_q x)).
Hypothesis Hb1 : one_used (s_regs (c_b x)).
Hypothesis Hlen : 1 <= List.length (circuit_qubits x) <= 30.

Lemma all_ready o y : In o (c_ops x) -> nth_error (w_op v) o = Some y -> ready v x o y.
Proof.
  rewrite Hops. intros Ho Hy. apply in_app_or in Ho. destruct Ho as [Ho|Ho]; [exact (bo_ready _ _ _ _ _ (Hg o y Ho Hy))|exact (mo_ready _ _ _ _ (Hm o y Ho Hy))].
Qed.

Lemma gate_said sc o k s : circuit_qubits x = map IQubit (sc_qubits Ccring sc) -> wf_op sc s -> In o gates -> called R R dbl v x o k -> shown v o s ->
  says_gate sc k s /\ is_measure (so_kind Ccring s) = false.
Proof.
  intros Eq W Ho (y & nm & qs & f & u & js & Ey & (cl & Ecl & Enm) & Eqs & Hf & Hu & -> & Fp) (y' & cl' & qs' & Ey' & Ecl' & Eqs' & Sq & Sc & Sk).
  assert (y' = y) by congruence. subst y'. assert (cl' = cl) by congruence. subst cl'. rewrite Enm in Sk.
  pose proof (Hg o y Ho Ey) as [_ (_ & Hnm & _ & _ & He) Hco].
  assert (Hne : ~ In nm QirSpec.extra). { intros Hi. destruct (He nm) as [E _]; [exists cl; auto|exact Hi|discriminate E]. }
  destruct Hu as [->|[Hu _]]; [|contradiction].
  assert (Sk' : is_measure (so_kind Ccring s) = false /\ exists ps gt, o_params y = map PNum ps /\ stands nm ps gt /\ so_kind Ccring s = gate_kind gt).
  { destruct (so_kind Ccring s) as [mid bs| | | | |]; [destruct Sk as [E _]; exfalso; apply Hnm; exists cl; split; congruence|..]; (split; [reflexivity|]);
      destruct Sk as (ps & gt & S1 & S2 & S3); exists ps, gt; auto. }
  destruct Sk' as (Em & ps & gt & S1 & S2 & S3). split; [|exact Em].
  exists nm, ps, gt, f, qs', js. split; [exact S2|]. split; [exact Hf|]. split; [exact Hne|].
  split. { assert (Ep : map dbl (o_params y) = ps) by (rewrite S1, map_map, (map_ext _ (fun a => a) Hdbl); apply map_id). now rewrite Ep. }
  split; [exact S3|]. split. { rewrite Hco in Sc. exact Sc. }
  split; [exact Sq|]. destruct W as (qs0 & W1 & _ & W2 & W3 & _). assert (qs0 = qs') by congruence. subst qs0.
  split; [now apply W2|]. split. { apply W3. rewrite S3. destruct gt; reflexivity. }
  assert (qs = map IQubit qs') by congruence. subst qs. clear -Fp Eq Hq1.
  remember (map IQubit qs') as l eqn:El. revert qs' El. induction Fp as [|q j l js H F IH]; intros qs' El.
  - destruct qs'; [constructor|discriminate El].
  - destruct qs' as [|q' qs']; [discriminate El|]. injection El as -> El. constructor; [|now apply IH].
    apply place_all in H; [|exact Hq1]. change (all_items (s_regs (c_q x))) with (circuit_qubits x) in H. rewrite Eq, nth_error_map in H.
    destruct (nth_error (sc_qubits Ccring sc) j); [|discriminate H]. cbn in H. congruence.
Qed.

Definition pair_items (z : nat * nat) : item * item := (IQubit (fst z), IBit (snd z)).
Lemma meas_said o l s : In o meas -> measures R v o l -> shown v o s -> exists l0, l = map pair_items l0 /\ says_meas l0 s.
Proof.
  intros Ho (y & qs & bs & Ey & (cl & Ecl & Enm) & Eqs & Ebs & ->) (y' & cl' & qs' & Ey' & Ecl' & Eqs' & Sq & Sc & Sk).
  assert (y' = y) by congruence. subst y'. assert (cl' = cl) by congruence. subst cl'.
  pose proof (Hm o y Ho Ey) as [_ _ Hco Hl]. assert (qs = map IQubit qs') by congruence. subst qs. specialize (Hl _ _ Eqs Ebs).
  assert (Sk' : exists mid bs', so_kind Ccring s = KMeasure Ccring mid bs' /\ o_bits y = option_map (map IBit) bs').
  { destruct (so_kind Ccring s) as [mid bs'| | | | |]; [destruct Sk as (_ & _ & E); eauto|..]; exfalso; destruct Sk as (ps & gt & _ & S2 & _); rewrite Enm in S2;
      inversion S2 as [? ? ? S3|? ? ? S3 E|E|E|E]; try (inversion S3; fail). }
  destruct Sk' as (mid & bs' & Ek & Eb). rewrite Ebs in Eb. destruct bs' as [bs'|]; [|discriminate Eb]. cbn in Eb. injection Eb as ->.
  exists (combine qs' bs'). split.
  - clear. revert bs'. induction qs' as [|q qs' IH]; intros [|b bs']; try reflexivity. cbn. now rewrite IH.
  - exists mid, qs', bs'. split; [exact Ek|]. split; [exact Sq|]. split; [now rewrite Hco in Sc|]. split; [now rewrite !map_length in Hl|reflexivity].
Qed.

(** The program and the parts of it. *)
Lemma qir_means_full ext : exists q a ys sc bits measured ms gs, qir_circuit R v c = Some q /\
  to_qir_calls (param R) pnum R dbl q ext = Ok [mkMain R (Call R "__quantum__rt__initialize" [] :: a ++ map mz ys ++ map rec ys)%list true] /\
  seen v c = Some sc /\ circuit_qubits x = map IQubit (sc_qubits Ccring sc) /\ Forall2 (shown v) (c_ops x) (sc_ops Ccring sc) /\
  circuit_bits x = map IBit bits /\ Forall2 (measures R v) meas ms /\ map snd (List.concat ms) = map IBit measured /\
  same_runs sc bits measured (memory v) (Call R "__quantum__rt__initialize" [] :: a ++ map mz ys ++ map rec ys)%list /\
  Forall2 (says_gate sc) a gs /\ (exists zs, Forall2 (placed_pair sc bits) zs ys) /\ Forall2 (called R R dbl v x) gates a.
Proof.
  destruct (export_qir R ptrue peqb more p v Hex Hvi Hsm c x Hc R dbl pnum ext gates meas Hops) as (q & a & b & r & ms & E1 & E2 & Fa & Fm & Fb & Fr).
  { intros o y Ho Hy. destruct (bo_comp _ _ _ _ _ (Hg o y Ho Hy)) as (A & B & C & D & E). split; [exact A|]. split; [exact B|]. split; [exact C|]. split; [exact D|].
    intros n0 H1 H2. destruct (E n0 H1 H2) as [F _]. discriminate F. }
  { intros o y Ho Hy. exact (mo_meas _ _ _ _ (Hm o y Ho Hy)). }
  destruct (link_seen ptrue peqb more p v (both_own R ptrue peqb more p Hex) Hvi Hsm c x Hc all_ready) as (sc & E3 & E4 & E5 & W & U).
  { intros H. rewrite H in Hlen. cbn in Hlen. lia. }
  destruct (both_bits R ptrue peqb more p v Hex Hvi Hsm c x Hc) as (B1 & _ & _).
  destruct (read_bits _ B1) as (cb & _ & Ecb).
  assert (Ncb : NoDup cb).
  { destruct (IB_reach R ptrue peqb v (both_class R ptrue peqb more p v Hex Hvi) Hsm) as [J _]. destruct (JB_nth _ _ _ _ J Hc) as [A _].
    pose proof (ro_nodup _ _ A) as N. change (all_items (s_regs (c_b x))) with (circuit_bits x) in N. rewrite Ecb in N. exact (NoDup_map_inv _ _ N). }
  rewrite Hops in E5. apply Forall2_app_inv_l in E5. destruct E5 as (gs & mo & Fg & Fo & Es).
  pose proof W as (_ & _ & Wo).
  assert (G : forall g0 a0 gs0, incl g0 gates -> Forall2 (called R R dbl v x) g0 a0 -> Forall2 (shown v) g0 gs0 -> (forall s, In s gs0 -> wf_op sc s) ->
    Forall2 (says_gate sc) a0 gs0 /\ forall s, In s gs0 -> is_measure (so_kind Ccring s) = false).
  { induction g0 as [|o g0 IH]; intros a0 gs0 Ig Ga Gg Wg.
    - inversion Ga; inversion Gg; subst. split; [constructor|intros s []].
    - inversion Ga as [|? k ? a1 H1 F1]; subst; inversion Gg as [|? s ? gs1 H2 F2]; subst.
      destruct (gate_said sc o k s E4 (Wg s (or_introl eq_refl)) (Ig o (or_introl eq_refl)) H1 H2) as [S1 S2].
      destruct (IH a1 gs1) as [T1 T2]; [intros z Hz; apply Ig; now right|exact F1|exact F2|intros z Hz; apply Wg; now right|].
      split; [now constructor|]. intros z [<-|Hz]; auto. }
  destruct (G gates a gs (incl_refl _) Fa Fg) as [G1 G2]; [intros s Hs; apply Wo; rewrite Es; apply in_or_app; now left|]. clear G.
  assert (M : forall m0 ms0 mo0, incl m0 meas -> Forall2 (measures R v) m0 ms0 -> Forall2 (shown v) m0 mo0 ->
    exists ls, ms0 = map (map pair_items) ls /\ Forall2 says_meas ls mo0).
  { induction m0 as [|o m0 IH]; intros ms0 mo0 Im Ga Gg.
    - inversion Ga; inversion Gg; subst. exists []. split; [reflexivity|constructor].
    - inversion Ga as [|? l ? ms1 H1 F1]; subst; inversion Gg as [|? s ? mo1 H2 F2]; subst.
      destruct (meas_said o l s (Im o (or_introl eq_refl)) H1 H2) as (l0 & -> & S).
      destruct (IH ms1 mo1) as (ls & -> & T); [intros z Hz; apply Im; now right|exact F1|exact F2|]. exists (l0 :: ls). split; [reflexivity|now constructor]. }
  destruct (M meas ms mo (incl_refl _) Fm Fo) as (ls & -> & Ml). clear M.
  assert (Hcc : List.concat (map (map pair_items) ls) = map pair_items (List.concat ls)) by (symmetry; apply concat_map).
  assert (Y : exists ys, Forall2 (placed_pair sc cb) (List.concat ls) ys /\ b = map mz ys /\ r = map rec ys).
  { rewrite Hcc in Fb, Fr. clear -Fb Fr Hq1 Hb1 E4 Ecb Ncb. revert b r Fb Fr. induction (List.concat ls) as [|z zs IH]; intros b r Fb Fr.
    - inversion Fb; inversion Fr; subst. exists []. split; [constructor|split; reflexivity].
    - cbn [map] in Fb, Fr. inversion Fb as [|? k ? b' H1 F1]; subst; inversion Fr as [|? k' ? r' H2 F2]; subst.
      destruct (IH b' r' F1 F2) as (ys & T1 & -> & ->).
      destruct H1 as (i & j & P1 & P2 & ->). destruct H2 as (j' & P3 & ->). cbn [pair_items fst snd] in P1, P2, P3.
      apply place_all in P1; [|exact Hq1]. apply place_all in P2; [|exact Hb1]. apply place_all in P3; [|exact Hb1].
      change (all_items (s_regs (c_q x))) with (circuit_qubits x) in P1. change (all_items (s_regs (c_b x))) with (circuit_bits x) in P2, P3.
      rewrite E4, nth_error_map in P1. rewrite Ecb, nth_error_map in P2, P3.
      destruct (nth_error (sc_qubits Ccring sc) i) as [q0|] eqn:N1; [|discriminate P1]. destruct (nth_error cb j) as [b0|] eqn:N2; [|discriminate P2].
      destruct (nth_error cb j') as [b1|] eqn:N3; [|discriminate P3]. cbn in P1, P2, P3. injection P1 as ->. injection P2 as ->. injection P3 as ->.
      assert (j' = j) by (apply (proj1 (NoDup_nth_error cb) Ncb); [apply nth_error_Some; congruence|congruence]). subst j'.
      exists ((i, j) :: ys). split; [constructor; [split; assumption|exact T1]|]. split; reflexivity. }
  destruct Y as (ys & Hys & -> & ->).
  exists q, a, ys, sc, cb, (map snd (List.concat ls)), (map (map pair_items) ls), gs.
  split; [exact E1|]. split; [exact E2|]. split; [exact E3|]. split; [exact E4|].
  split; [rewrite Hops, Es; now apply Forall2_app|]. split; [exact Ecb|]. split; [exact Fm|].
  split; [rewrite Hcc, !map_map; reflexivity|].
  split; [|split; [exact G1|split; [eexists; exact Hys|exact Fa]]].
  apply (sem_circuit sc cb (memory v) gs mo a ls ys W U); auto.
  unfold SimModel.num_qubits. apply (f_equal (@List.length item)) in E4. rewrite map_length in E4. lia.
Qed.
Lemma qir_means ext : qir_meant pnum dbl ext v c x meas.
Proof.
  destruct (qir_means_full ext) as (q & a & ys & sc & bits & measured & ms & gs & H1 & H2 & H3 & H4 & H5 & H6 & H7 & H8 & H9 & _).
  exists q, (Call R "__quantum__rt__initialize" [] :: a ++ map mz ys ++ map rec ys)%list, sc, bits, measured, ms. repeat (split; [assumption|]). assumption.
Qed.
End Means.

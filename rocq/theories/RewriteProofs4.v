(** Rewritten circuits: branches, density matrices, programs. *)
From Coq Require Import List NArith Arith Bool Lia Reals Lra.
From Verif Require Import Py CRing Cplx KernelModel KernelSpec KernelProofs2 SimModel SimSpec SimReal SimProofs SimProofs2 SimProofs3 SimProofs4 MeasureSpec SimProofs7
  UnitarySpec CallSpec CallProofs CallProofs2 CallProofs3 SampleSpec SampleProofs SampleProofs2 StateModel StateProofs BranchSpec BranchProofs BranchProofs2 GateModel RewriteSpec RewriteProofs
  RegisterModel WorldModel WorldSpec WorldSpec4 WorldInv WorldInv7 LinkModel LinkSpec LinkProofs SessionModel SessionSpec SessionProofs SessionProofs2 SessionProofs3 SessionProofs4 BornProofs.
Import ListNotations.
Local Open Scope R_scope.

(** ** Branches *)
Lemma branch_bits c ops h bits v bits' w : branch c ops h bits v bits' w -> forall f, (forall b, f b = bits b) -> branch c ops h f v bits' w.
Proof.
  induction 1 as [bits v bits' w Hb Hw|o ops h bits v bits' w Hz H IH|o ops h ts bits v v' bits' w Hz Hm Hp Hv H IH|o ops mid st os h ts bits v v' bits' w Hz Hk Hp Hl Hv H IH]; intros f Hf.
  - constructor; [|exact Hw]. intros b. rewrite Hf. apply Hb.
  - apply branch_blocked; [eapply some_zero_ext; [exact Hf|exact Hz]|now apply IH].
  - apply branch_gate with (ts := ts) (v' := v'); auto. intros Y. apply Hz. eapply some_zero_ext; [|exact Y]. intros; symmetry; apply Hf.
  - apply branch_measure with (mid := mid) (store := st) (ts := ts) (v' := v'); auto.
    + intros Y. apply Hz. eapply some_zero_ext; [|exact Y]. intros; symmetry; apply Hf.
    + apply IH. now apply recorded_ext.
Qed.

Lemma branch_skip c cond bits : some_zero bits cond -> forall A l h v bits' w, (forall o, In o A -> so_cond Ccring o = cond) ->
  branch c (A ++ l) h bits v bits' w <-> branch c l h bits v bits' w.
Proof.
  intros Hz. induction A as [|o A IH]; intros l h v bits' w Ho; [reflexivity|]. cbn [app].
  assert (Z : some_zero bits (so_cond Ccring o)) by now rewrite (Ho o (or_introl eq_refl)).
  rewrite <- (IH l h v bits' w) by (intros; apply Ho; now right). split; intros H.
  - inversion H; subst; auto; contradiction.
  - now apply branch_blocked.
Qed.
Lemma branch_split c cond bits : ~ some_zero bits cond -> forall A l h v bits' w, (forall o, In o A -> so_cond Ccring o = cond /\ is_measure (so_kind Ccring o) = false) ->
  branch c (A ++ l) h bits v bits' w -> exists u, @runs Ccring false c bits A v u /\ branch c l h bits u bits' w.
Proof.
  intros Hz. induction A as [|o A IH]; intros l h v bits' w Ho H; [exists v; split; [now constructor|exact H]|]. cbn [app] in H.
  destruct (Ho o (or_introl eq_refl)) as (E & M).
  inversion H as [|? ? ? ? ? ? ? Hs|? ? ? ts ? ? v' ? ? Hs Hm Hp Hv Hr|? ? ? ? ? ? ? ? ? ? ? ? Hs Hk]; subst.
  - contradiction.
  - destruct (IH l h v' bits' w (fun x Hx => Ho x (or_intror Hx)) Hr) as (u & H1 & H2). exists u. split; [eapply runs_gate; eauto|exact H2].
  - rewrite Hk in M. discriminate M.
Qed.
Lemma branch_join c bits : forall A l h v u bits' w, (forall o, In o A -> is_measure (so_kind Ccring o) = false /\ wf_op c o) -> NoDup (sc_qubits Ccring c) -> (forall o, In o l -> wf_op c o) ->
  @runs Ccring false c bits A v u -> branch c l h bits u bits' w -> branch c (A ++ l) h bits v bits' w.
Proof.
  intros A l h v u bits' w Ho Hnd Hl H. revert h bits' w. induction H as [v u Hu|o A v u Hz H IH|o A ts v v' u Hz Hp Hv H IH]; intros h bits' w Hb; cbn [app].
  - eapply (branch_ext c Hnd); eauto. intros; symmetry; auto.
  - apply branch_blocked; [exact Hz|]. apply IH; auto. intros; apply Ho; now right.
  - destruct (Ho o (or_introl eq_refl)). apply branch_gate with (ts := ts) (v' := v'); auto. apply IH; auto. intros; apply Ho; now right.
Qed.

Section Branches.
Variables c d : scirc Ccring.
Hypothesis Hc : NoDup (sc_qubits Ccring c).
Hypothesis Hd : NoDup (sc_qubits Ccring d).
Hypothesis Hcne : sc_qubits Ccring c <> [].
Hypothesis Hdne : sc_qubits Ccring d <> [].
Notation n := (SimModel.num_qubits Ccring c).
Hypothesis Hcd : SimModel.num_qubits Ccring d = n.
Hypothesis Hn : (n <= 30)%N.

Lemma runs_some e ops bits v : (forall o, In o ops -> wf_op e o) -> exists w, @runs Ccring false e bits ops v w.
Proof.
  intros Ho. revert v. induction ops as [|o ops IH]; intros v; [exists v; now constructor|].
  specialize (IH (fun x Hx => Ho x (or_intror Hx))). destruct (zero_dec bits (so_cond Ccring o)) as [Z|Z].
  - destruct (IH v) as (w & H). exists w. now apply runs_skip.
  - destruct (placed_wf Ccring e o (Ho o (or_introl eq_refl))) as (ts & _ & Hp & _).
    destruct (IH (@gate_action Ccring false (SimModel.num_qubits Ccring e) (so_kind Ccring o) ts v)) as (w & H). exists w. eapply runs_gate with (ts := ts); [exact Z|exact Hp| |exact H]. reflexivity.
Qed.

Theorem rewritten_branch l l' : rewritten c d l l' -> (forall o, In o l -> wf_op c o) -> (forall o, In o l' -> wf_op d o) ->
  forall h bits v bits' w v' z, phased n z v v' -> branch c l h bits v bits' w -> exists w' z', branch d l' h bits v' bits' w' /\ phased n z' w w'.
Proof.
  induction 1 as [|o p l l' (Hk & Hco & ts & Hp & Hq) H IH|cond A B l l' Hab He H IH]; intros H1 H2 h bits v bits' w v' z Hz Hb.
  - inversion Hb as [? ? ? ? Hbb Hw| | |]; subst. exists v', z. split; [now constructor|]. split; [apply Hz|]. intros i Hi. rewrite Hw by exact Hi. now apply Hz.
  - pose proof (H1 o (or_introl eq_refl)) as W1. pose proof (H2 p (or_introl eq_refl)) as W2.
    specialize (IH (fun x Hx => H1 x (or_intror Hx)) (fun x Hx => H2 x (or_intror Hx))).
    inversion Hb as [|? ? ? ? ? ? ? Hs Hr|? ? ? ts1 ? ? v1 ? ? Hs Hm Hp1 Hv Hr|? ? mid st os ? ts1 ? ? v1 ? ? Hs Ek Hp1 Hl Hv Hr]; subst.
    + destruct (IH _ _ _ _ _ v' z Hz Hr) as (w' & z' & A1 & A2). exists w', z'. split; [|exact A2]. apply branch_blocked; [now rewrite Hco|exact A1].
    + assert (ts1 = ts) by exact (placed_unique Ccring c o ts1 ts Hc Hp1 Hp). subst ts1. pose proof (alike_gate _ _ Hk Hm) as Ep.
      destruct (placed_good Ccring c o ts W1 Hc Hp Hm) as (Hg & Hkk).
      assert (Hph : phased n z v1 (@gate_action Ccring false n (so_kind Ccring o) ts v')).
      { split; [apply Hz|]. intros i Hi. rewrite (Hv i Hi). rewrite (gate_action_ext Ccring false n (so_kind Ccring o) ts v' (fun j => Cmul z (v j)) i Hkk Hg Hi (proj2 Hz)). now apply gate_scale. }
      destruct (IH _ _ _ _ _ _ z Hph Hr) as (w' & z' & A1 & A2). exists w', z'. split; [|exact A2]. eapply branch_gate with (ts := ts); [now rewrite Hco|now rewrite Ep|exact Hq| |exact A1]. intros i Hi. now rewrite Ep, Hcd.
    + assert (ts1 = ts) by exact (placed_unique Ccring c o ts1 ts Hc Hp1 Hp). subst ts1. rewrite Ek in Hk. destruct (so_kind Ccring p) as [mid' st'| | | | |] eqn:Ep; cbn in Hk; try contradiction. subst st'.
      assert (Hph : phased n z v1 (fun i => if shows n i ts os then v' i else C0)).
      { split; [apply Hz|]. intros i Hi. rewrite (Hv i Hi). destruct (shows n i ts os); [now apply Hz|]. ceq; ring. }
      destruct (IH _ _ _ _ _ _ z Hph Hr) as (w' & z' & A1 & A2). exists w', z'. split; [|exact A2]. eapply branch_measure with (mid := mid') (store := st) (ts := ts); [now rewrite Hco|exact Ep|exact Hq|exact Hl| |exact A1]. intros i Hi. now rewrite Hcd.
  - assert (FA : fine c A) by (intros o Ho; split; [apply H1, in_or_app; now left|apply Hab, in_or_app; now left]).
    assert (FB : fine d B) by (intros o Ho; split; [apply H2, in_or_app; now left|apply Hab, in_or_app; now right]).
    specialize (IH (fun x Hx => H1 x (in_or_app _ _ _ (or_intror Hx))) (fun x Hx => H2 x (in_or_app _ _ _ (or_intror Hx)))).
    destruct (zero_dec bits cond) as [Z|Z].
    + apply (branch_skip c cond bits Z) in Hb; [|intros; apply Hab, in_or_app; now left]. destruct (IH _ _ _ _ _ v' z Hz Hb) as (w' & z' & A1 & A2).
      exists w', z'. split; [|exact A2]. apply (branch_skip d cond bits Z); [intros; apply Hab, in_or_app; now right|exact A1].
    + destruct (branch_split c cond bits Z A l h v bits' w) as (u & R1 & Hb'); [intros; apply Hab, in_or_app; now left|exact Hb|].
      destruct (runs_some d B bits v' (fun o Ho => proj1 (FB o Ho))) as (u' & R2).
      destruct (effect_phased c d Hc Hd Hcne Hdne Hcd A B bits v v' u u' cond z FA FB (fun o Ho => proj1 (Hab o Ho)) Z He Hz R1 R2) as (z1 & Hz1).
      destruct (IH _ _ _ _ _ u' z1 Hz1 Hb') as (w' & z' & A1 & A2). exists w', z'. split; [|exact A2].
      eapply branch_join; eauto; [intros o Ho; destruct (FB o Ho); auto|intros; apply H2, in_or_app; now right].
Qed.
End Branches.

Theorem rewritten_branches c d : wf_circ c -> wf_circ d -> SimModel.num_qubits Ccring d = SimModel.num_qubits Ccring c ->
  rewritten c d (sc_ops Ccring c) (sc_ops Ccring d) ->
  forall h bits v bits' w, branch c (sc_ops Ccring c) h bits v bits' w ->
  exists w' z, branch d (sc_ops Ccring d) h bits v bits' w' /\ phased (SimModel.num_qubits Ccring c) z w w' /\
    weight (SimModel.num_qubits Ccring c) w' = weight (SimModel.num_qubits Ccring c) w.
Proof.
  intros (A1 & A2 & A3) (B1 & B2 & B3) Hcd H h bits v bits' w Hb.
  destruct (rewritten_branch c d A1 B1 A2 B2 Hcd _ _ H A3 B3 h bits v bits' w v C1 (phased_refl _ _) Hb) as (w' & z & E1 & E2).
  exists w', z. split; [exact E1|]. split; [exact E2|]. destruct E2 as (Hz & Hw). apply Rsum_ext. intros i Hi. apply in_Nrange in Hi. rewrite (Hw i Hi), Cnorm2_mul, Hz. ring.
Qed.

(** ** Density matrices *)
Theorem rewritten_density c d : wf_circ c -> wf_circ d -> unitary_circ c -> unitary_circ d -> SimModel.num_qubits Ccring d = SimModel.num_qubits Ccring c ->
  (2 * SimModel.num_qubits Ccring c <= 30)%N -> measurement_free c -> measurement_free d -> rewritten c d (sc_ops Ccring c) (sc_ops Ccring d) ->
  forall rnd (m : SimModel.mem Ccring) s s' le le', (forall k, uniform (rnd k)) ->
  let n := SimModel.num_qubits Ccring c in
  exists rho rho', simulate_set rnd c true le m s = (m, mkCst None (Some (mkArr [2 ^ n; 2 ^ n]%N rho)), Ok tt) /\
    simulate_set rnd d true le' m s' = (m, mkCst None (Some (mkArr [2 ^ n; 2 ^ n]%N rho')), Ok tt) /\
    forall r k, (r < 2 ^ n)%N -> (k < 2 ^ n)%N -> rho' (rowcol n r k) = rho (rowcol n r k).
Proof.
  intros Wc Wd Uc Ud Hcd Hn Mc Md H rnd m s s' le le' Hr n; subst n.
  destruct (simulate_sets_density rnd c le m s Hr Wc Uc Mc Hn) as (rho & v & E1 & E2 & _ & E3).
  assert (Hn' : (2 * SimModel.num_qubits Ccring d <= 30)%N) by (rewrite Hcd; exact Hn).
  destruct (simulate_sets_density rnd d le' m s' Hr Wd Ud Md Hn') as (rho' & v' & F1 & F2 & _ & F3). rewrite Hcd in F1, F3.
  exists rho, rho'. split; [exact E1|]. split; [exact F1|]. intros r k Hr' Hk. rewrite (E3 r k Hr' Hk), (F3 r k Hr' Hk).
  assert (L : (SimModel.num_qubits Ccring c <= 30)%N) by lia.
  destruct (rewritten_simulate c d Wc Wd Uc Ud Hcd L H rnd m m Hr (fun _ => eq_refl) eq_refl) as (m1 & a & m2 & a' & z & G1 & G2 & _ & _ & Hz & Ha).
  rewrite E2 in G1. injection G1 as <- <-. rewrite F2 in G2. injection G2 as <- <-. rewrite (Ha r Hr'), (Ha k Hk).
  unfold Cnorm2 in Hz. apply C_eq; unfold Cmul, Cconj, Re, Im in *; cbn [fst snd].
  - transitivity ((fst z * fst z + snd z * snd z) * (fst (v r) * fst (v k) - snd (v r) * - snd (v k))); [ring|rewrite Hz; ring].
  - transitivity ((fst z * fst z + snd z * snd z) * (fst (v r) * - snd (v k) + snd (v r) * fst (v k))); [ring|rewrite Hz; ring].
Qed.

(** ** Programs *)
Local Open Scope nat_scope.
Section Program.
Variable ptrue : R -> bool.
Variable peqb : R -> R -> bool.
Variable extra : list cls.
Variable p : sprog.
Variable s : session.
Hypothesis He : sexecutes ptrue peqb (own_ok R) p (begin (library_classes ++ extra)%list).
Hypothesis Hv : svisits ptrue peqb p (begin (library_classes ++ extra)%list) s.
Hypothesis Hsm : small R (s_w s).

Theorem session_rewritten c d x y sc sd : nth_error (w_circ (s_w s)) c = Some x -> nth_error (w_circ (s_w s)) d = Some y ->
  (forall o t, In o (c_ops x) -> nth_error (w_op (s_w s)) o = Some t -> ready (s_w s) x o t) ->
  (forall o t, In o (c_ops y) -> nth_error (w_op (s_w s)) o = Some t -> ready (s_w s) y o t) ->
  let n := List.length (circuit_qubits x) in 1 <= n -> n <= 30 -> List.length (circuit_qubits y) = n ->
  seen (s_w s) c = Some sc -> seen (s_w s) d = Some sd -> rewritten sc sd (sc_ops Ccring sc) (sc_ops Ccring sd) ->
  forall rnd, (forall k, uniform (rnd k)) -> exists s1 s2 a a' z, sim c false false rnd s = (s1, Ok tt) /\ sim d false false rnd s = (s2, Ok tt) /\
    s_st s1 c = mkCst (Some (mkArr [2 ^ N.of_nat n]%N a)) None /\ s_st s2 d = mkCst (Some (mkArr [2 ^ N.of_nat n]%N a')) None /\
    (forall b, b < List.length (w_bit (s_w s)) -> bit_value R (s_w s2) b = bit_value R (s_w s1) b) /\ phased (N.of_nat n) z a a'.
Proof.
  intros Hx Hy Rx Ry n Hn1 Hn30 Hn2 Ec Ed H rnd Hr.
  destruct (session_run ptrue peqb extra p s c x He Hv Hsm Hx Rx Hn1 Hn30) as (sc' & Es & En & _ & _ & Ew & Eu & Hrun).
  assert (Hm1 : 1 <= List.length (circuit_qubits y)) by lia. assert (Hm30 : List.length (circuit_qubits y) <= 30) by lia.
  destruct (session_run ptrue peqb extra p s d y He Hv Hsm Hy Ry Hm1 Hm30) as (sd' & Ds & Dn & _ & _ & Dw & Du & Drun).
  rewrite Ec in Es. injection Es as <-. rewrite Ed in Ds. injection Ds as <-. rewrite Hn2 in Dn, Drun. fold n in En, Hrun.
  destruct (Hrun rnd Hr) as (m & a & Er & Esim). destruct (Drun rnd Hr) as (m' & a' & Er' & Esim').
  assert (L30 : (SimModel.num_qubits Ccring sc <= 30)%N) by (rewrite En; lia). assert (Hcd : SimModel.num_qubits Ccring sd = SimModel.num_qubits Ccring sc) by congruence.
  destruct Ew as (A1 & A2 & A3). destruct Dw as (B1 & B2 & B3).
  destruct (rewritten_run sc sd A1 B1 A2 B2 Hcd L30 rnd Hr _ _ H (fun o Ho => conj (A3 o Ho) (Eu o Ho)) (fun o Ho => conj (B3 o Ho) (Du o Ho))
    (found s) (found s) (zero_state Ccring) (zero_state Ccring) C1 (zero_normalised _) (phased_refl _ _) (fun _ => eq_refl) eq_refl) as (m1 & b & m2 & b' & z & E1 & E2 & E3 & E4 & _).
  rewrite Er in E1. injection E1 as <- <-. rewrite Er' in E2. injection E2 as <- <-. rewrite En in E3.
  eexists _, _, a, a', z. split; [exact Esim|]. split; [exact Esim'|]. cbn [s_st s_w]. split; [unfold set_at; now rewrite Nat.eqb_refl|]. split; [unfold set_at; now rewrite Nat.eqb_refl|].
  split; [|exact E3]. intros i Hi. rewrite !put_value; [apply E4| |]; rewrite qubits_bits; auto.
Qed.
End Program.

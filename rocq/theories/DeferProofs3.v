(** Measurements put later, split and merged: whole circuits, programs, repeated measurements. *)
From Coq Require Import List NArith Arith Bool Lia Reals Lra Permutation.
From Verif Require Import Py CRing Cplx KernelModel KernelSpec KernelProofs2 SimModel SimSpec SimReal SimProofs SimProofs2 SimProofs3 SimProofs4 MeasureSpec SimProofs7
  UnitarySpec CallSpec CallProofs CallProofs2 CallProofs3 SampleSpec SampleProofs SampleProofs2 StateModel StateProofs BranchSpec BranchProofs BranchProofs2 GateModel RewriteSpec RewriteProofs
  RegisterModel WorldModel WorldSpec WorldSpec4 WorldInv WorldInv7 LinkModel LinkSpec LinkProofs SessionModel SessionSpec SessionProofs SessionProofs2 SessionProofs3 SessionProofs4 BornProofs
  RewriteProofs4 OrderSpec OrderProofs OrderProofs2 OrderProofs3 OrderProofs4 DeferSpec DeferProofs DeferProofs2.
Import ListNotations.
Local Open Scope R_scope.

(** ** Simulations *)
Lemma simulate_run rnd c m m1 a : sc_qubits Ccring c <> [] -> run_pure_C rnd c false (sc_ops Ccring c) m (zero_state Ccring) = (m1, Ok a) -> simulate_C rnd c false false m = (m1, Ok (SVec Ccring a)).
Proof. intros Hq E. unfold run_pure_C in E. unfold simulate_C, simulate. destruct (sc_qubits Ccring c) eqn:Q; [congruence|]. now rewrite E. Qed.

Theorem remeasured_simulate c ops : wf_circ c -> unitary_circ c -> (SimModel.num_qubits Ccring c <= 30)%N -> remeasured false (sc_ops Ccring c) ops ->
  forall rnd (m m' : SimModel.mem Ccring), (forall k, uniform (rnd k)) -> (forall b, m_bits Ccring m' b = m_bits Ccring m b) -> m_pos Ccring m' = m_pos Ccring m ->
  exists m1 a m2 a', simulate_C rnd c false false m = (m1, Ok (SVec Ccring a)) /\ simulate_C rnd (mkScirc Ccring (sc_qubits Ccring c) ops) false false m' = (m2, Ok (SVec Ccring a')) /\
    (forall b, m_bits Ccring m2 b = m_bits Ccring m1 b) /\ m_pos Ccring m2 = m_pos Ccring m1 /\ forall i, (i < 2 ^ SimModel.num_qubits Ccring c)%N -> a' i = a i.
Proof.
  intros (A1 & A2 & A3) Uc Hn H rnd m m' Hr Hb Hp.
  destruct (remeasured_run c A1 Hn rnd Hr _ _ H (fun o Ho => conj (A3 o Ho) (Uc o Ho)) m (zero_state Ccring) m' (zero_state Ccring) (zero_normalised _)) as (m1 & a & m2 & a' & E1 & E2 & (E3 & E4 & E5) & _);
    [split; [exact Hb|split; [exact Hp|auto]]|].
  exists m1, a, m2, a'. split; [now apply simulate_run|]. split; [|auto]. apply simulate_run; [exact A2|]. rewrite (run_qubits rnd c) by reflexivity. exact E2.
Qed.

Theorem remeasured_branches c ops : wf_circ c -> unitary_circ c -> remeasured true (sc_ops Ccring c) ops -> forall bits v,
  let d := mkScirc Ccring (sc_qubits Ccring c) ops in
  exists L : list (list bool * list bool * R),
    NoDup (map (fun x => fst (fst x)) L) /\ NoDup (map (fun x => snd (fst x)) L) /\
    (forall h, In h (map (fun x => fst (fst x)) L) <-> exists bits' w, branch c (sc_ops Ccring c) h bits v bits' w) /\
    (forall h, In h (map (fun x => snd (fst x)) L) <-> exists bits' w, branch d (sc_ops Ccring d) h bits v bits' w) /\
    (forall h h' p, In (h, h', p) L -> Permutation h h' /\
       forall bits' w, branch c (sc_ops Ccring c) h bits v bits' w -> branch d (sc_ops Ccring d) h' bits v bits' w /\ weight (SimModel.num_qubits Ccring c) w = p) /\
    Rsum L snd = weight (SimModel.num_qubits Ccring c) v.
Proof.
  intros (A1 & _ & A3) Uc H bits v d.
  assert (Fl : forall o, In o (sc_ops Ccring c) -> fit c o) by (intros o Ho; exact (conj (A3 o Ho) (Uc o Ho))).
  pose proof (proj1 (remeasured_fits c true _ _ H) Fl) as Fd. destruct (remeasured_carries c A1 true _ _ H Fl) as (K1 & K2).
  destruct (carries_paired c A1 _ _ K1 K2 Fl Fd bits v) as (L & L1 & L2 & L3 & L4 & L5 & L6).
  exists L. split; [exact L1|]. split; [exact L2|]. split; [exact L3|]. split; [|split; [|exact L6]].
  - intros h. rewrite L4. split; intros (b & w & Hb); exists b, w; (eapply branch_qubits; [|exact Hb]); reflexivity.
  - intros h h' q Hi. destruct (L5 h h' q Hi) as (P & Q). split; [exact P|]. intros b w Hb. destruct (Q b w Hb) as (Q1 & Q2). split; [|exact Q2].
    eapply branch_qubits; [|exact Q1]. reflexivity.
Qed.

(** ** Measuring again *)
Lemma settled_collapses n ts us os v w : collapses n ts us os v w -> (forall u, In u us -> uniform u) -> normalised n v ->
  forall ps, length ps = length ts -> (forall i, (i < 2 ^ n)%N -> shows n i ts ps = false -> v i = C0) -> os = ps /\ forall i, (i < 2 ^ n)%N -> w i = v i.
Proof.
  induction 1 as [v w Hw|t ts u us o os v v' w Ho Hp Hv H IH]; intros Hu Hn ps Hl Hz.
  - destruct ps; [auto|discriminate Hl].
  - destruct ps as [|p ps]; [discriminate Hl|].
    assert (Zp : forall i, (i < 2 ^ n)%N -> Bool.eqb (qbit false n i t) p = false -> v i = C0) by (intros i Hi E; apply Hz; [exact Hi|cbn; now rewrite E]).
    assert (One : prob false n t p v = 1).
    { rewrite <- Hn, prob_if. apply Rsum_ext. intros i Hi. apply in_Nrange in Hi. destruct (Bool.eqb (qbit false n i t) p) eqn:E; [reflexivity|]. rewrite (Zp i Hi E). unfold Cnorm2, C0, Re, Im. cbn. ring. }
    assert (Zero : prob false n t (negb p) v = 0).
    { rewrite prob_if. transitivity (Rsum (Nrange (2 ^ n)) (fun _ => 0)); [|clear; induction (Nrange (2 ^ n)) as [|x l IH]; cbn; [reflexivity|unfold Rsum in *; cbn in *; lra]].
      apply Rsum_ext. intros i Hi. apply in_Nrange in Hi. destruct (Bool.eqb (qbit false n i t) (negb p)) eqn:E; [|reflexivity].
      rewrite (Zp i Hi); [unfold Cnorm2, C0, Re, Im; cbn; ring|]. destruct (qbit false n i t), p; try discriminate E; reflexivity. }
    assert (o = p).
    { destruct (Hu u (or_introl eq_refl)) as (U0 & U1). destruct p; cbn in Zero.
      - destruct o; [reflexivity|]. assert (u < prob false n t false v) by (now apply Ho). lra.
      - apply Ho. lra. }
    subst p. assert (V : forall i, (i < 2 ^ n)%N -> v' i = v i).
    { intros i Hi. rewrite (Hv i Hi), One, sqrt_1. destruct (Bool.eqb (qbit false n i t) o) eqn:E; [|symmetry; now apply Zp]. apply C_eq; unfold Cmul, RtoC, Re, Im; cbn; field. }
    destruct (IH (fun x Hx => Hu x (or_intror Hx))) with (ps := ps) as (-> & W).
    + unfold normalised in *. rewrite <- Hn. apply Rsum_ext. intros i Hi. apply in_Nrange in Hi. now rewrite (V i Hi).
    + now injection Hl.
    + intros i Hi E. rewrite (V i Hi). apply Hz; [exact Hi|]. cbn. rewrite E. apply andb_false_r.
    + split; [reflexivity|]. intros i Hi. rewrite (W i Hi). now apply V.
Qed.

Lemma recorded_nth bs os f j b o : NoDup bs -> nth_error bs j = Some b -> nth_error os j = Some o -> recorded (Some bs) os f b = Some o.
Proof.
  intros Hd. revert os f j. induction Hd as [|x bs Hx Hd IH]; intros os f j Hj Ho; [destruct j; discriminate Hj|].
  destruct os as [|y os]; [destruct j; discriminate Ho|]. destruct j as [|j]; cbn in Hj, Ho.
  - injection Hj as ->. injection Ho as ->. cbn [recorded combine fold_left]. change (recorded (Some bs) os (fun z => if Nat.eqb z b then Some o else f z) b = Some o).
    rewrite (recorded_other (Some bs) os); [now rewrite Nat.eqb_refl|exact Hx].
  - exact (IH os (fun z => if Nat.eqb z x then Some y else f z) j Hj Ho).
Qed.

Theorem measured_again c A mid mid' qs bs bs' : wf_circ c -> unitary_circ c -> (SimModel.num_qubits Ccring c <= 30)%N ->
  sc_ops Ccring c = A ++ [measures mid qs bs []; measures mid' qs bs' []] -> length bs = length qs -> length bs' = length qs -> NoDup bs -> NoDup bs' -> (forall b, In b bs -> ~ In b bs') ->
  forall rnd (m : SimModel.mem Ccring), (forall k, uniform (rnd k)) ->
  exists m1 a m2 a', simulate_C rnd c false false m = (m1, Ok (SVec Ccring a)) /\
    simulate_C rnd (mkScirc Ccring (sc_qubits Ccring c) (A ++ [measures mid qs bs []])) false false m = (m2, Ok (SVec Ccring a')) /\
    (forall j b b', nth_error bs j = Some b -> nth_error bs' j = Some b' -> m_bits Ccring m1 b <> None /\ m_bits Ccring m1 b' = m_bits Ccring m1 b) /\
    (forall b, ~ In b bs' -> m_bits Ccring m1 b = m_bits Ccring m2 b) /\ forall i, (i < 2 ^ SimModel.num_qubits Ccring c)%N -> a i = a' i.
Proof.
  intros (A1 & A2 & A3) Uc Hn Eo L1 L2 D1 D2 Hdis rnd m Hr.
  assert (F : forall o, In o (sc_ops Ccring c) -> fit c o) by (intros o Ho; exact (conj (A3 o Ho) (Uc o Ho))). rewrite Eo in F.
  set (X := measures mid qs bs []) in *. set (Y := measures mid' qs bs' []) in *.
  assert (FA : forall o, In o A -> fit c o) by (intros o Ho; apply F, in_or_app; now left).
  assert (FX : fit c X) by (apply F, in_or_app; right; now left). assert (FY : fit c Y) by (apply F, in_or_app; right; right; now left).
  destruct (equiv_refl c A1 Hn rnd Hr A FA m (zero_state Ccring) m (zero_state Ccring) (zero_normalised _)) as (m0 & v0 & m0' & v0' & R0 & _ & _ & N0); [split; [auto|split; auto]|].
  destruct (step_run c A1 Hn rnd Hr X m0 v0 FX N0) as (m2 & a' & R2 & N2 & S2). destruct (step_run c A1 Hn rnd Hr Y m2 a' FY N2) as (m1 & a & R1 & _ & S1).
  exists m1, a, m2, a'. split; [|split].
  - apply simulate_run; [exact A2|]. rewrite Eo. unfold run_pure_C in *. rewrite run_pure_app, R0. change [X; Y] with ([X] ++ [Y]). now rewrite run_pure_app, R2.
  - apply simulate_run; [exact A2|]. rewrite (run_qubits rnd c) by reflexivity. cbn [sc_ops]. unfold run_pure_C in *. now rewrite run_pure_app, R0.
  - destruct S2 as [(x & [] & _)|ts _ Em|mid1 st1 ts os _ Ek P C B Q]; [discriminate Em|]. injection Ek as <- <-.
    destruct S1 as [(x & [] & _)|ts' _ Em|mid2 st2 ts' os' _ Ek P' C' B' Q']; [discriminate Em|]. injection Ek as <- <-.
    assert (ts' = ts).
    { destruct P as (y & [= <-] & G), P' as (y' & [= <-] & G'). refine (placed_unique Ccring c X ts' ts A1 _ _); exists qs; split; auto. }
    subst ts'. destruct (collapses_length _ _ _ _ _ _ C) as (Lo & _). pose proof (placed_length c _ _ _ _ _ P) as Lt.
    destruct (collapses_joint _ _ _ _ _ _ C N0) as (_ & Hsup).
    destruct (settled_collapses _ _ _ _ _ _ C') with (ps := os) as (-> & Hw).
    + intros u Hu. apply in_map_iff in Hu. destruct Hu as (k & <- & _). apply Hr.
    + exact N2.
    + exact Lo.
    + intros i Hi E. now rewrite (Hsup i Hi), E.
    + split; [|split; [|exact Hw]].
      * intros j b b' Hj Hj'. assert (Hj1 : (j < length os)%nat) by (rewrite Lo, Lt, <- L1; apply nth_error_Some; congruence).
        destruct (nth_error os j) as [o|] eqn:Eo'; [|apply nth_error_None in Eo'; lia].
        assert (Hb : m_bits Ccring m1 b = Some o).
        { rewrite B', recorded_other by (apply Hdis; eapply nth_error_In; eauto). rewrite B. eapply recorded_nth; eauto. }
        split; [congruence|]. rewrite Hb, B'. eapply recorded_nth; eauto.
      * intros b Hb. rewrite B'. now apply recorded_other.
Qed.

(** ** Programs *)
Local Open Scope nat_scope.
Section Program.
Variable ptrue : R -> bool.
Variable peqb : R -> R -> bool.
Variable extra : list cls.
Variable p : sprog.
Variable s : session.
Hypothesis He : sexecutes ptrue peqb (own_ok R) p (begin (library_classes ++ extra)%list).
Hypothesis Hv : svisits ptrue peqb p (begin (library_classes ++ extra)%list) s.
Hypothesis Hsm : small R (s_w s).

Theorem session_remeasured c d x y sc sd : nth_error (w_circ (s_w s)) c = Some x -> nth_error (w_circ (s_w s)) d = Some y ->
  (forall o t, In o (c_ops x) -> nth_error (w_op (s_w s)) o = Some t -> ready (s_w s) x o t) ->
  (forall o t, In o (c_ops y) -> nth_error (w_op (s_w s)) o = Some t -> ready (s_w s) y o t) ->
  let n := List.length (circuit_qubits x) in 1 <= n -> n <= 30 -> List.length (circuit_qubits y) = n ->
  seen (s_w s) c = Some sc -> seen (s_w s) d = Some sd -> sc_qubits Ccring sd = sc_qubits Ccring sc -> remeasured false (sc_ops Ccring sc) (sc_ops Ccring sd) ->
  forall rnd, (forall k, uniform (rnd k)) -> exists s1 s2 a a', sim c false false rnd s = (s1, Ok tt) /\ sim d false false rnd s = (s2, Ok tt) /\
    s_st s1 c = mkCst (Some (mkArr [2 ^ N.of_nat n]%N a)) None /\ s_st s2 d = mkCst (Some (mkArr [2 ^ N.of_nat n]%N a')) None /\
    (forall b, b < List.length (w_bit (s_w s)) -> bit_value R (s_w s2) b = bit_value R (s_w s1) b) /\
    forall i, (i < 2 ^ N.of_nat n)%N -> a' i = a i.
Proof.
  intros Hx Hy Rx Ry n Hn1 Hn30 Hn2 Ec Ed Hq H rnd Hr.
  destruct (session_run ptrue peqb extra p s c x He Hv Hsm Hx Rx Hn1 Hn30) as (sc' & Es & En & _ & _ & Ew & Eu & Hrun).
  rewrite Ec in Es. injection Es as <-. fold n in En, Hrun.
  assert (Hm1 : 1 <= List.length (circuit_qubits y)) by lia. assert (Hm30 : List.length (circuit_qubits y) <= 30) by lia.
  destruct (session_run ptrue peqb extra p s d y He Hv Hsm Hy Ry Hm1 Hm30) as (sd' & Ds & _ & _ & _ & _ & _ & Drun).
  rewrite Ed in Ds. injection Ds as <-. rewrite Hn2 in Drun.
  destruct (Hrun rnd Hr) as (m & a & Er & Esim). destruct (Drun rnd Hr) as (m' & a' & Er' & Esim').
  assert (L30 : (SimModel.num_qubits Ccring sc <= 30)%N) by (rewrite En; lia). destruct Ew as (A1 & A2 & A3).
  rewrite (run_qubits rnd sc sd Hq) in Er'.
  destruct (remeasured_run sc A1 L30 rnd Hr _ _ H (fun o Ho => conj (A3 o Ho) (Eu o Ho)) (found s) (zero_state Ccring) (found s) (zero_state Ccring) (zero_normalised _))
    as (m1 & b & m2 & b' & E1 & E2 & (E3 & _ & E5) & _); [split; [auto|split; auto]|].
  rewrite Er in E1. injection E1 as <- <-. rewrite Er' in E2. injection E2 as <- <-. rewrite En in E5.
  eexists _, _, a, a'. split; [exact Esim|]. split; [exact Esim'|]. cbn [s_st s_w]. split; [unfold set_at; now rewrite Nat.eqb_refl|]. split; [unfold set_at; now rewrite Nat.eqb_refl|].
  split; [|exact E5]. intros i Hi. rewrite !put_value; [apply E3| |]; rewrite qubits_bits; auto.
Qed.
End Program.

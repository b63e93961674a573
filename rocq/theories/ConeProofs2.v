(** Dropped gates: simulations and programs. *)
From Coq Require Import List NArith Arith Bool Lia Reals Lra Permutation.
From Verif Require Import Py CRing Cplx KernelModel KernelSpec KernelProofs2 SimModel SimSpec SimReal SimProofs SimProofs2 SimProofs3 SimProofs4 MeasureSpec SimProofs7
  UnitarySpec CallSpec CallProofs CallProofs2 CallProofs3 SampleSpec SampleProofs SampleProofs2 StateModel StateProofs BranchSpec BranchProofs BranchProofs2 GateModel RewriteSpec RewriteProofs
  RegisterModel WorldModel WorldSpec WorldSpec4 WorldInv WorldInv7 LinkModel LinkSpec LinkProofs SessionModel SessionSpec SessionProofs SessionProofs2 SessionProofs3 SessionProofs4 BornProofs
  RewriteProofs4 OrderSpec OrderProofs OrderProofs2 OrderProofs3 OrderProofs4 DeferProofs3 ConeSpec ConeProofs.
Import ListNotations.
Local Open Scope R_scope.

Section Run.
Variable c : scirc Ccring.
Hypothesis Hc : NoDup (sc_qubits Ccring c).
Hypothesis Hn : (SimModel.num_qubits Ccring c <= 30)%N.
Notation n := (SimModel.num_qubits Ccring c).
Variable rnd : nat -> R.
Hypothesis Hrnd : forall k, uniform (rnd k).

Lemma apart_placed d ts o us : apart c d ts -> In o d -> placed c o us -> forall t, In t ts -> (t < n)%N /\ (In t us -> keeps (so_kind Ccring o) us t).
Proof.
  intros H Ho (qs & Eq & F) t Ht. destruct (H t Ht) as (Hl & Hq). split; [exact Hl|]. intros Hu. destruct (placed_find c qs us F t Hu) as (q & Hin & E).
  apply (placed_keeps c Hc (so_kind Ccring o) qs us q t F E). exact (Hq o qs q Ho Eq Hin E).
Qed.

(** Gates leave bits, random numbers and the outcomes on qubits they do not change as they are. *)
Lemma gates_run d : (forall o, In o d -> fit c o /\ is_measure (so_kind Ccring o) = false) -> forall m v, normalised n v ->
  exists w, run_pure_C rnd c false d m v = (m, Ok w) /\ normalised n w /\ forall ts os, apart c d ts -> joint n ts os w = joint n ts os v.
Proof.
  induction d as [|o d IH]; intros Fd m v Hv; [exists v; split; [reflexivity|auto]|].
  destruct (Fd o (or_introl eq_refl)) as (Fo & Em). destruct (step_run c Hc Hn rnd Hrnd o m v Fo Hv) as (m1 & w1 & E1 & N1 & S1).
  assert (K : m1 = m /\ forall ts os, apart c (o :: d) ts -> joint n ts os w1 = joint n ts os v).
  { destruct S1 as [Z -> ->|us Z _ Hp -> Hg|mid st us os' Z Ek]; [auto| |rewrite Ek in Em; discriminate Em]. split; [reflexivity|].
    intros ts os Ha. destruct (placed_good Ccring c o us (proj1 Fo) Hc Hp Em) as (Gt & Kt).
    rewrite <- (weight_shows n ts os w1 (kept c ts os w1)) by reflexivity. rewrite <- (weight_shows n ts os v (kept c ts os v)) by reflexivity.
    apply (gate_weight n (so_kind Ccring o) us); [exact Kt|exact Gt|exact (proj2 Fo)|]. intros i Hi. etransitivity; [|symmetry; apply kept_gate; auto].
    - unfold kept. destruct (shows n i ts os); [apply Hg; exact Hi|reflexivity].
    - intros t Ht. eapply apart_placed; eauto. now left. }
  destruct K as (-> & K). destruct (IH (fun x Hx => Fd x (or_intror Hx)) m w1 N1) as (w & E & Nw & J). exists w. split; [|split; [exact Nw|]].
  - rewrite (run_cons c rnd o d), E1. exact E.
  - intros ts os Ha. rewrite J; [apply K; exact Ha|]. intros t Ht. destruct (Ha t Ht) as (X & Y). split; [exact X|]. intros x qs q Hx. apply Y. now right.
Qed.

Theorem pruned_run l k d : pruned l k d -> (forall o, In o l -> fit c o) -> (forall o, In o d -> is_measure (so_kind Ccring o) = false) ->
  forall m v m' v', normalised n v -> same c m v m' v' -> exists m1 w m2 w', run_pure_C rnd c false l m v = (m1, Ok w) /\ run_pure_C rnd c false k m' v' = (m2, Ok w') /\
    (forall b, m_bits Ccring m2 b = m_bits Ccring m1 b) /\ m_pos Ccring m2 = m_pos Ccring m1 /\ forall ts os, apart c d ts -> joint n ts os w' = joint n ts os w.
Proof.
  intros H Fl Hd m v m' v' Hv S. pose proof (pruned_in l k d H) as Hin.
  assert (Re : reordered false l (k ++ d)) by (apply pruned_reordered; auto).
  destruct (reordered_run c Hc Hn rnd Hrnd _ _ Re Fl m v m' v' Hv S) as (m1 & w & m2 & w2 & E1 & E2 & (S1 & S2 & S3) & _).
  assert (Fk : forall o, In o k -> fit c o) by (intros o Ho; apply Fl, Hin; auto).
  destruct (equiv_refl c Hc Hn rnd Hrnd k Fk m' v' m' v' (same_norm c _ _ _ _ S Hv)) as (m3 & w3 & _ & _ & E3 & _ & _ & N3); [split; [auto|split; auto]|].
  destruct (gates_run d) with (m := m3) (v := w3) as (w4 & E4 & _ & J); [intros o Ho; split; [apply Fl, Hin; auto|auto]|exact N3|].
  assert (X : run_pure_C rnd c false (k ++ d) m' v' = (m3, Ok w4)) by (unfold run_pure_C in *; now rewrite run_pure_app, E3).
  rewrite X in E2. injection E2 as <- <-. exists m1, w, m3, w3. split; [exact E1|]. split; [exact E3|]. split; [exact S1|]. split; [exact S2|].
  intros ts os Ha. rewrite <- (J ts os Ha). unfold joint. apply Rsum_ext. intros i Hi. apply filter_In in Hi. destruct Hi as (Hi & _). apply in_Nrange in Hi. now rewrite S3.
Qed.
End Run.

Theorem pruned_simulate c k d : wf_circ c -> unitary_circ c -> (SimModel.num_qubits Ccring c <= 30)%N -> pruned (sc_ops Ccring c) k d ->
  (forall o, In o d -> is_measure (so_kind Ccring o) = false) -> forall rnd (m m' : SimModel.mem Ccring), (forall k, uniform (rnd k)) ->
  (forall b, m_bits Ccring m' b = m_bits Ccring m b) -> m_pos Ccring m' = m_pos Ccring m ->
  exists m1 a m2 a', simulate_C rnd c false false m = (m1, Ok (SVec Ccring a)) /\ simulate_C rnd (mkScirc Ccring (sc_qubits Ccring c) k) false false m' = (m2, Ok (SVec Ccring a')) /\
    (forall b, m_bits Ccring m2 b = m_bits Ccring m1 b) /\ m_pos Ccring m2 = m_pos Ccring m1 /\
    forall ts os, apart c d ts -> joint (SimModel.num_qubits Ccring c) ts os a' = joint (SimModel.num_qubits Ccring c) ts os a.
Proof.
  intros (A1 & A2 & A3) Uc Hn H Hd rnd m m' Hr Hb Hp.
  destruct (pruned_run c A1 Hn rnd Hr _ k d H (fun o Ho => conj (A3 o Ho) (Uc o Ho)) Hd m (zero_state Ccring) m' (zero_state Ccring) (zero_normalised _)) as (m1 & a & m2 & a' & E1 & E2 & E3);
    [split; [exact Hb|split; [exact Hp|auto]]|].
  exists m1, a, m2, a'. split; [now apply simulate_run|]. split; [|exact E3]. apply simulate_run; [exact A2|]. rewrite (run_qubits rnd c) by reflexivity. exact E2.
Qed.

Lemma chance_qubits c d ops bits v T p : sc_qubits Ccring d = sc_qubits Ccring c -> chance c ops bits v T p -> chance d ops bits v T p.
Proof.
  intros E (L & L1 & L2 & L3 & L4). assert (En : SimModel.num_qubits Ccring d = SimModel.num_qubits Ccring c) by (unfold SimModel.num_qubits; now rewrite E).
  exists L. split; [exact L1|]. split; [|split; [|exact L4]].
  - intros h. rewrite L2. split; intros (b & w & H & Ht); exists b, w; (split; [|exact Ht]); (eapply branch_qubits; [|exact H]); [exact E|now symmetry].
  - intros h q Hq b w H. rewrite En. apply (L3 h q Hq b w). eapply branch_qubits; [|exact H]. now symmetry.
Qed.
Theorem pruned_chances c k d T : wf_circ c -> unitary_circ c -> pruned (sc_ops Ccring c) k d -> ignores T d -> forall bits v, exists p,
  (forall x, chance c (sc_ops Ccring c) bits v T x <-> x = p) /\ forall x, chance (mkScirc Ccring (sc_qubits Ccring c) k) k bits v T x <-> x = p.
Proof.
  intros (A1 & _ & A3) Uc H Ht bits v.
  destruct (pruned_chance c A1 T) with (l := sc_ops Ccring c) (k := k) (d := d) (bits := bits) (v := v) as (p & P1 & P2);
    [intros f g E; apply Ht; auto|exact H|intros o Ho; exact (conj (A3 o Ho) (Uc o Ho))|exact Ht|].
  exists p. split; [exact P1|]. intros x. rewrite <- P2. split; apply chance_qubits; reflexivity.
Qed.

(** ** Programs *)
Local Open Scope nat_scope.
Section Program.
Variable ptrue : R -> bool.
Variable peqb : R -> R -> bool.
Variable extra : list cls.
Variable p : sprog.
Variable s : session.
Hypothesis He : sexecutes ptrue peqb (own_ok R) p (begin (library_classes ++ extra)%list).
Hypothesis Hv : svisits ptrue peqb p (begin (library_classes ++ extra)%list) s.
Hypothesis Hsm : small R (s_w s).

Theorem session_pruned c d x y sc sd dropped : nth_error (w_circ (s_w s)) c = Some x -> nth_error (w_circ (s_w s)) d = Some y ->
  (forall o t, In o (c_ops x) -> nth_error (w_op (s_w s)) o = Some t -> ready (s_w s) x o t) ->
  (forall o t, In o (c_ops y) -> nth_error (w_op (s_w s)) o = Some t -> ready (s_w s) y o t) ->
  let n := List.length (circuit_qubits x) in 1 <= n -> n <= 30 -> List.length (circuit_qubits y) = n ->
  seen (s_w s) c = Some sc -> seen (s_w s) d = Some sd -> sc_qubits Ccring sd = sc_qubits Ccring sc -> pruned (sc_ops Ccring sc) (sc_ops Ccring sd) dropped ->
  (forall o, In o dropped -> is_measure (so_kind Ccring o) = false) ->
  forall rnd, (forall k, uniform (rnd k)) -> exists s1 s2 a a', sim c false false rnd s = (s1, Ok tt) /\ sim d false false rnd s = (s2, Ok tt) /\
    s_st s1 c = mkCst (Some (mkArr [2 ^ N.of_nat n]%N a)) None /\ s_st s2 d = mkCst (Some (mkArr [2 ^ N.of_nat n]%N a')) None /\
    (forall b, b < List.length (w_bit (s_w s)) -> bit_value R (s_w s2) b = bit_value R (s_w s1) b) /\
    forall ts os, apart sc dropped ts -> joint (N.of_nat n) ts os a' = joint (N.of_nat n) ts os a.
Proof.
  intros Hx Hy Rx Ry n Hn1 Hn30 Hn2 Ec Ed Hq H Hd rnd Hr.
  destruct (session_run ptrue peqb extra p s c x He Hv Hsm Hx Rx Hn1 Hn30) as (sc' & Es & En & _ & _ & Ew & Eu & Hrun).
  rewrite Ec in Es. injection Es as <-. fold n in En, Hrun.
  assert (Hm1 : 1 <= List.length (circuit_qubits y)) by lia. assert (Hm30 : List.length (circuit_qubits y) <= 30) by lia.
  destruct (session_run ptrue peqb extra p s d y He Hv Hsm Hy Ry Hm1 Hm30) as (sd' & Ds & _ & _ & _ & _ & _ & Drun).
  rewrite Ed in Ds. injection Ds as <-. rewrite Hn2 in Drun.
  destruct (Hrun rnd Hr) as (m & a & Er & Esim). destruct (Drun rnd Hr) as (m' & a' & Er' & Esim').
  assert (L30 : (SimModel.num_qubits Ccring sc <= 30)%N) by (rewrite En; lia). destruct Ew as (A1 & A2 & A3).
  rewrite (run_qubits rnd sc sd Hq) in Er'.
  destruct (pruned_run sc A1 L30 rnd Hr _ _ _ H (fun o Ho => conj (A3 o Ho) (Eu o Ho)) Hd (found s) (zero_state Ccring) (found s) (zero_state Ccring) (zero_normalised _))
    as (m1 & b & m2 & b' & E1 & E2 & E3 & _ & E5); [split; [auto|split; auto]|].
  rewrite Er in E1. injection E1 as <- <-. rewrite Er' in E2. injection E2 as <- <-. rewrite En in E5.
  eexists _, _, a, a'. split; [exact Esim|]. split; [exact Esim'|]. cbn [s_st s_w]. split; [unfold set_at; now rewrite Nat.eqb_refl|]. split; [unfold set_at; now rewrite Nat.eqb_refl|].
  split; [|exact E5]. intros i Hi. rewrite !put_value; [apply E3| |]; rewrite qubits_bits; auto.
Qed.
End Program.

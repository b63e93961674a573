(** Proofs for C87. *)
From Coq Require Import List NArith Arith Bool Lia Reals Lra.
From Verif Require Import Py CRing Cplx KernelModel KernelSpec KernelBits KernelProofs KernelProofs2 SimModel SimSpec SimReal SimProofs SimProofs2 SimProofs3 
  UnitaryModel UnitarySpec CallSpec CallProofs CallProofs2 CallProofs3 GateModel GateProofs GateProofs2 RewriteSpec RewriteProofs RewriteProofs2 RewriteProofs3 InverseSpec.
Import ListNotations.
Local Open Scope N_scope.

(** ** Matrices *)
Lemma product_cons g l r s : product (g :: l) r s = Cadd (Cmul (product l r 0) (matrix1 g 0 s)) (Cmul (product l r 1) (matrix1 g 1 s)).
Proof.
  cbn [product]. unfold matmul. change (Nrange 2) with [0; 1]. cbn [sumf fold_right]. cbn [radd rmul r0 Ccring].
  generalize (product l) (matrix1 g). intros A B. ceq; ring.
Qed.
Lemma product_nil : product [] 0 0 = C1 /\ product [] 0 1 = C0 /\ product [] 1 0 = C0 /\ product [] 1 1 = C1.
Proof. repeat split. Qed.
Lemma phases l : (forall g, In g l -> In g [GZ; GS; GT]) -> product l 0 0 = C1 /\ product l 0 1 = C0 /\ product l 1 0 = C0 /\
  product l 1 1 = fold_right (fun g z => Cmul z (matrix1 g 1 1)) C1 l.
Proof.
  induction l as [|g l IH]; intros H; [repeat split|]. destruct IH as (A & B & D & E); [intros; apply H; now right|].
  assert (Q : matrix1 g 0 0 = C1 /\ matrix1 g 0 1 = C0 /\ matrix1 g 1 0 = C0) by (destruct (H g (or_introl eq_refl)) as [<-|[<-|[<-|[]]]]; repeat split).
  destruct Q as (Q1 & Q2 & Q3). rewrite !product_cons, A, B, D, Q1, Q2, Q3. cbn [fold_right]. rewrite <- E. repeat split; ceq; ring.
Qed.
Lemma agree_phases l : (forall g, In g l -> In g [GZ; GS; GT]) -> fold_right (fun g z => Cmul z (matrix1 g 1 1)) C1 l = C1 -> agree l [] C1.
Proof.
  intros H Q. destruct (phases l H) as (A & B & D & E). rewrite Q in E. destruct product_nil as (A' & B' & D' & E'). intros r s Hr Hs.
  destruct (two_cases r Hr) as [->| ->], (two_cases s Hs) as [->| ->]; rewrite ?A, ?B, ?D, ?E, ?A', ?B', ?D', ?E'; ceq; ring.
Qed.
Lemma agree_via l g : agree l [g] C1 -> (forall r s, r < 2 -> s < 2 -> matrix1 g r s = matrix1 GIdentity r s) -> agree l [] C1.
Proof.
  intros H Q r s Hr Hs. rewrite <- (H r s Hr Hs), product_one by auto. symmetry. now apply Q.
Qed.
Ltac corners := let r := fresh "r" in let s := fresh "s" in let Hr := fresh in let Hs := fresh in
  intros r s Hr Hs; destruct (two_cases r Hr) as [->| ->], (two_cases s Hs) as [->| ->].
Lemma half_zero a : ((a + - a) / 2 = 0)%R /\ (- (a + - a) / 2 = 0)%R.
Proof. split; field. Qed.
Lemma square t : (sin t * sin t = 1 - cos t * cos t)%R.
Proof. pose proof (sin2_cos2 t) as Q. unfold Rsqr in Q. lra. Qed.
Lemma agree_rotation b c d : agree [GRotation b c d; GRotation (- d) (- c) (- b)] [] C1.
Proof.
  assert (E1 : (- (1 / 2) * (b + d) = - ((b + d) / 2))%R) by field. assert (E2 : (1 / 2 * (b - d) = (b - d) / 2)%R) by field.
  assert (E3 : (- (1 / 2) * (b - d) = - ((b - d) / 2))%R) by field. assert (E4 : (1 / 2 * (b + d) = (b + d) / 2)%R) by field.
  assert (F1 : (- (1 / 2) * (- d + - b) = (b + d) / 2)%R) by field. assert (F2 : (1 / 2 * (- d - - b) = (b - d) / 2)%R) by field.
  assert (F3 : (- (1 / 2) * (- d - - b) = - ((b - d) / 2))%R) by field. assert (F4 : (1 / 2 * (- d + - b) = - ((b + d) / 2))%R) by field.
  destruct product_nil as (A & B & D & E).
  pose proof (square ((b + d) / 2)) as P1. pose proof (square ((b - d) / 2)) as P2. pose proof (square (c / 2)) as P3.
  corners; rewrite !product_cons, ?A, ?B, ?D, ?E; unfold matrix1, lit, Cexp; cbn [N.to_nat Pos.to_nat Pos.iter_op Nat.add nth];
    rewrite ?E1, ?E2, ?E3, ?E4, ?F1, ?F2, ?F3, ?F4, ?neg_half, ?cos_neg, ?sin_neg; clear E1 E2 E3 E4 F1 F2 F3 F4; revert P1 P2 P3;
    generalize (sin ((b + d) / 2)) (cos ((b + d) / 2)) (sin ((b - d) / 2)) (cos ((b - d) / 2)) (sin (c / 2)) (cos (c / 2));
    intros s1 c1 s2 c2 s3 c3 P1 P2 P3; ceq; ring [P1 P2 P3].
Qed.
Lemma agree_inverse g : agree (g :: inverse1 g) [] C1.
Proof.
  destruct g as [| | | | | | |a|a|a|b c d]; cbn [inverse1].
  - exact agree_none.
  - apply agree_twice; cbn; tauto.
  - apply agree_twice; cbn; tauto.
  - apply agree_twice; cbn; tauto.
  - apply agree_twice; cbn; tauto.
  - apply agree_phases; [cbn; intuition|]. cbn [fold_right]. unfold matrix1, lit; cbn [N.to_nat Pos.to_nat Pos.iter_op Nat.add nth]. ceq; ring.
  - apply agree_phases; [cbn; intuition|]. destruct eighth as (x & E & Q). cbn [fold_right]. unfold matrix1, lit, Cexp; cbn [N.to_nat Pos.to_nat Pos.iter_op Nat.add nth].
    rewrite ?cos_PI4, ?sin_PI4, ?E. clear E. ceq; ring_simplify; try replace (x ^ 2)%R with (/ 2)%R by (rewrite <- Q; ring); lra.
  - apply (agree_via _ (GRX (a + - a)) (agree_rx a (- a))). destruct (half_zero a) as (E1 & E2).
    corners; unfold matrix1, lit, Cexp; cbn [N.to_nat Pos.to_nat Pos.iter_op Nat.add nth]; rewrite ?E1, ?E2, ?cos_0, ?sin_0; ceq; ring.
  - apply (agree_via _ (GRY (a + - a)) (agree_ry a (- a))). destruct (half_zero a) as (E1 & E2).
    corners; unfold matrix1, lit, Cexp; cbn [N.to_nat Pos.to_nat Pos.iter_op Nat.add nth]; rewrite ?E1, ?E2, ?cos_0, ?sin_0; ceq; ring.
  - apply (agree_via _ (GRZ (a + - a)) (agree_rz a (- a))). destruct (half_zero a) as (E1 & E2).
    corners; unfold matrix1, lit, Cexp; cbn [N.to_nat Pos.to_nat Pos.iter_op Nat.add nth]; rewrite ?E1, ?E2, ?cos_0, ?sin_0; ceq; ring.
  - exact (agree_rotation b c d).
Qed.

(** ** Sequences *)
Definition in_order (g : gate) : list nat := match g with GOne _ => [0] | GC _ | GSWAP => [0; 1] | GCSWAP | GCCX => [0; 1; 2] end%nat.
Lemma width_qubits g : N.to_nat (qubits_of g) = width g.
Proof. now destruct g. Qed.
Lemma gate_taken_back g : alike_steps (width g) (map (fun h => (h, in_order g)) (g :: inverse_gate g)) [] C1.
Proof.
  destruct g as [g|g| | |]; cbn [width in_order inverse_gate].
  - pose proof (ones _ _ _ (agree_inverse g)) as H. cbn [map] in *. rewrite map_map. exact H.
  - pose proof (twos _ _ (agree_inverse g)) as H. cbn [map] in *. rewrite map_map. exact H.
  - exact (proj2 (proj2 (proj2 (identities _ _ _ _ id_swap)))).
  - exact (proj2 (proj2 (proj2 (identities _ _ _ _ id_cswap)))).
  - exact (proj2 (proj2 (proj2 (identities _ _ _ _ id_ccx)))).
Qed.
Lemma act_app n l l' ts v : act_steps false n (l ++ l') ts v = act_steps false n l' ts (act_steps false n l ts v).
Proof. revert v. induction l as [|[g js] l IH]; intros v; [reflexivity|]. cbn [app act_steps]. apply IH. Qed.
Lemma in_order_self g (ts : list N) : length ts = width g -> map (fun j => nth j ts 0) (in_order g) = ts.
Proof. destruct g; cbn; destruct ts as [|a [|b [|c [|? ?]]]]; intros E; try discriminate E; reflexivity. Qed.
Lemma act_moved n g js ts hs v : length js = width g ->
  act_steps false n (map (fun h => (h, js)) hs) ts v = act_steps false n (map (fun h => (h, in_order g)) hs) (map (fun j => nth j ts 0) js) v.
Proof.
  intros Hl. revert v. induction hs as [|h hs IH]; intros v; [reflexivity|]. cbn [map act_steps]. rewrite IH. f_equal. f_equal.
  symmetry. apply in_order_self. now rewrite map_length.
Qed.
Lemma moved_good n js ts : good_targets n ts -> NoDup js -> (forall j, In j js -> (j < length ts)%nat) -> good_targets n (map (fun j => nth j ts 0) js).
Proof.
  intros (Hn & Hl) Hj Hlt. split.
  - induction js as [|j js IH]; [constructor|]. inversion Hj; subst. cbn. constructor; [|apply IH; auto; intros; apply Hlt; now right].
    intros Hin. apply in_map_iff in Hin. destruct Hin as (j' & E & Hj'). assert (j' = j); [|now subst].
    apply (proj1 (NoDup_nth ts 0) Hn); auto; apply Hlt; [now right|now left].
  - intros t Ht. apply in_map_iff in Ht. destruct Ht as (j & <- & Hin). now apply Hl, nth_In, Hlt.
Qed.
Lemma act_ext n k l ts : steps_ok k l -> length ts = k -> good_targets n ts -> forall v w, (forall i, i < 2 ^ n -> v i = w i) ->
  forall i, i < 2 ^ n -> act_steps false n l ts v i = act_steps false n l ts w i.
Proof.
  intros H Hk Hg. induction H as [|[g js] l (H1 & H2 & H3) Hl IH]; intros v w E; [exact E|]. cbn [fst snd] in *. cbn [act_steps]. apply IH.
  intros i Hi. unfold cact. apply (gate_action_ext Ccring); auto.
  - destruct (lib_kind g) as (K1 & K2 & K3). split; [exact K1|]. split; [exact K2|]. intros a Ea. rewrite K3 in Ea. injection Ea as <-. now rewrite map_length.
  - apply moved_good; auto. rewrite Hk. now apply Forall_forall.
Qed.
Lemma picked_ok k l : picked k l <-> steps_ok k l.
Proof.
  unfold picked, steps_ok. rewrite Forall_forall. split.
  - intros H [g js] Hs. destruct (H g js Hs) as (H1 & H2 & H3). rewrite width_qubits. cbn. repeat split; auto. now apply Forall_forall.
  - intros H g js Hs. destruct (H (g, js) Hs) as (H1 & H2 & H3). rewrite width_qubits in H1. cbn in *. repeat split; auto. now apply Forall_forall.
Qed.
Lemma inverse_width g h : In h (inverse_gate g) -> width h = width g.
Proof. destruct g; cbn; intros H; try (apply in_map_iff in H; destruct H as (x & <- & _)); try (destruct H as [<-|[]]); reflexivity. Qed.
Lemma inverse_ok k l : steps_ok k l -> steps_ok k (inverse l).
Proof.
  induction 1 as [|[g js] l (H1 & H2 & H3) Hl IH]; [constructor|]. cbn [fst snd inverse] in *. apply Forall_app. split; [exact IH|].
  apply Forall_forall. intros s Hs. apply in_map_iff in Hs. destruct Hs as (h & <- & Hh). cbn. rewrite width_qubits in *. now rewrite (inverse_width g h Hh).
Qed.
Lemma taken_back k l : steps_ok k l -> alike_steps k (l ++ inverse l) [] C1.
Proof.
  intros H n ts v i Hk Hg Hi. rewrite Cone. cbn [act_steps]. symmetry. revert v i Hi.
  induction H as [|[g js] l H Hl IH]; intros v i Hi; [reflexivity|]. pose proof H as (H1 & H2 & H3). cbn [fst snd] in *. rewrite width_qubits in H1.
  cbn [app act_steps inverse fst snd]. rewrite app_assoc, act_app.
  assert (HI : steps_ok k (map (fun h => (h, js)) (inverse_gate g))).
  { apply Forall_forall. intros s Hs. apply in_map_iff in Hs. destruct Hs as (h & <- & Hh). cbn. rewrite width_qubits, (inverse_width g h Hh). auto. }
  rewrite (act_ext n k _ ts HI Hk Hg _ _ (IH (cact false n g (map (fun j => nth j ts 0) js) v)) i Hi).
  change (act_steps false n (map (fun h => (h, js)) (g :: inverse_gate g)) ts v i = v i).
  rewrite (act_moved n g js ts _ v H1). pose proof (gate_taken_back g n (map (fun j => nth j ts 0) js) v i) as Q. rewrite Cone in Q. symmetry. apply Q.
  - now rewrite map_length.
  - apply moved_good; auto. rewrite Hk. now apply Forall_forall.
  - exact Hi.
Qed.

(** ** Circuits *)
Lemma places (Q qs : list nat) : incl qs Q -> exists ts, Forall2 (fun q t => nth_error Q (N.to_nat t) = Some q) qs ts.
Proof.
  induction qs as [|q qs IH]; intros Hin; [exists []; constructor|]. destruct IH as (ts & Hts); [intros x Hx; apply Hin; now right|].
  destruct (In_nth_error Q q (Hin q (or_introl eq_refl))) as (j & Hj). exists (N.of_nat j :: ts). constructor; [now rewrite Nat2N.id|exact Hts].
Qed.
Lemma places_good (c : scirc Ccring) qs ts : NoDup qs -> Forall2 (fun q t => nth_error (sc_qubits Ccring c) (N.to_nat t) = Some q) qs ts ->
  length ts = length qs /\ good_targets (num_qubits Ccring c) ts.
Proof.
  intros Hqs Hts. split; [clear -Hts; induction Hts; cbn; congruence|]. split.
  - clear -Hts Hqs. induction Hts as [|q t qs ts H F IH]; [constructor|]. inversion Hqs; subst. constructor; [|auto]. intros Ht. apply H2.
    clear -F Ht H. induction F as [|q' t' l l' H' F IH]; [destruct Ht|]. destruct Ht as [->|Ht]; [left; congruence|right; auto].
  - clear -Hts. induction Hts as [|q t qs ts H F IH]; intros x []; [subst|auto]. assert (L : (N.to_nat x < length (sc_qubits Ccring c))%nat) by (apply nth_error_Some; congruence). unfold num_qubits. lia.
Qed.
Theorem inverse_effect c A qs cond : picked (length qs) A -> NoDup (sc_qubits Ccring c) -> NoDup qs -> incl qs (sc_qubits Ccring c) ->
  same_effect c (map (on qs cond) (A ++ inverse A)) c [].
Proof.
  intros HA Hnd Hqs Hin. apply picked_ok in HA. destruct (places _ qs Hin) as (ts & Hts). destruct (places_good c qs ts Hqs Hts) as (Hl & Hg).
  assert (HI : steps_ok (length qs) (A ++ inverse A)) by (apply Forall_app; split; [exact HA|now apply inverse_ok]).
  apply (effect_intro c c _ [] C1); [now apply (steps_fine c qs cond ts)|intros o []|unfold Cnorm2, C1, Re, Im; cbn; ring|].
  intros v i Hi. rewrite (steps_does c Hnd qs cond ts) by auto. now apply (taken_back (length qs) A HA).
Qed.

Lemma runs_steps c bits qs cond ts l : NoDup (sc_qubits Ccring c) -> NoDup qs -> Forall2 (fun q t => nth_error (sc_qubits Ccring c) (N.to_nat t) = Some q) qs ts ->
  steps_ok (length qs) l -> forall v w, runs false c bits (map (on qs cond) l) v w ->
  (some_zero bits cond -> forall i, i < 2 ^ num_qubits Ccring c -> w i = v i) /\
  (~ some_zero bits cond -> forall i, i < 2 ^ num_qubits Ccring c -> w i = act_steps false (num_qubits Ccring c) l ts v i).
Proof.
  intros Hnd Hqs Hts H. destruct (places_good c qs ts Hqs Hts) as (Hlen & Hg).
  induction H as [|[g js] l Hs Hl IH]; intros v w R.
  - inversion R as [? ? A| |]; subst. split; intros _; exact A.
  - cbn [map] in R. inversion R as [|? ? ? ? Z R1|? ? ts' ? v' ? Z P A R1]; subst; destruct (IH _ _ R1) as (I1 & I2); cbn [on so_cond] in Z; split; intros Z'; try contradiction.
    + now apply I1.
    + intros i Hi. rewrite (I2 Z' i Hi). cbn [act_steps]. apply (act_ext _ (length qs)); auto. intros j Hj. rewrite (A j Hj).
      destruct (step_ok c qs cond ts Hqs Hts (g, js) Hs) as (_ & Hp). assert (ts' = map (fun k => nth k ts 0) js) as -> by (eapply placed_unique; [exact Hnd|exact P|exact Hp]). reflexivity.
Qed.
Theorem inverse_simulate rnd c A qs cond le (m : mem Ccring) : wf_circ c -> sc_ops Ccring c = map (on qs cond) (A ++ inverse A) -> picked (length qs) A -> NoDup qs -> incl qs (sc_qubits Ccring c) ->
  num_qubits Ccring c <= 30 -> exists w, simulate_C rnd c false le m = (m, Ok (SVec Ccring w)) /\ forall i, i < 2 ^ num_qubits Ccring c -> w i = if i =? 0 then C1 else C0.
Proof.
  intros Hw Ho HA Hqs Hin Hn. apply picked_ok in HA. pose proof Hw as (Hnd & _). destruct (places _ qs Hin) as (ts & Hts). destruct (places_good c qs ts Hqs Hts) as (Hl & Hg).
  assert (HI : steps_ok (length qs) (A ++ inverse A)) by (apply Forall_app; split; [exact HA|now apply inverse_ok]).
  assert (Hm : measurement_free c). { intros o H. rewrite Ho in H. apply in_map_iff in H. destruct H as (s & <- & _). apply lib_kind. }
  assert (F : exists w, simulate_C rnd c false false m = (m, Ok (SVec Ccring w)) /\ forall i, i < 2 ^ num_qubits Ccring c -> w i = zero_state Ccring i).
  { destruct (simulate_runs Ccring R Cgtb Cis0 Cinvsqrt rnd c false m Hw Hm Hn) as (w & E & H). exists w. split; [exact E|]. rewrite Ho in H.
    destruct (runs_steps c _ qs cond ts _ Hnd Hqs Hts HI _ _ H) as (I1 & I2). intros i Hi.
    set (o := mkSop Ccring (KOther Ccring 1 (matrix1 GX)) None cond). destruct (is_blocked Ccring m o) eqn:B.
    - apply I1; auto. now apply (is_blocked_spec Ccring m o).
    - rewrite I2; auto.
      + pose proof (taken_back (length qs) A HA (num_qubits Ccring c) ts (zero_state Ccring) i Hl Hg Hi) as Q. rewrite Cone in Q. symmetry. exact Q.
      + intros Z. apply (is_blocked_spec Ccring m o) in Z. congruence. }
  destruct F as (w & E & Z). destruct le; [|exists w; split; [exact E|exact Z]].
  destruct (simulate_runs Ccring R Cgtb Cis0 Cinvsqrt rnd c true m Hw Hm Hn) as (w' & E' & _). exists w'. split; [exact E'|]. intros i Hi.
  rewrite (simulate_endian Ccring R Cgtb Cis0 Cinvsqrt rnd c m w' w Hw Hm Hn E' E i Hi), Z by apply bitrev_lt. unfold zero_state.
  destruct (N.eqb_spec i 0) as [->|Hi0]; [now rewrite bitrev_0|].
  destruct (N.eqb_spec (bitrev (num_qubits Ccring c) i) 0) as [Q|]; [|reflexivity]. exfalso. apply Hi0. rewrite <- (bitrev_invol _ i Hi), Q. apply bitrev_0.
Qed.

(** A part that takes itself back can be left out of any circuit. *)
Lemma rewritten_own c d l : sc_qubits Ccring d = sc_qubits Ccring c -> (forall o, In o l -> wf_op c o) -> forall x y, rewritten c d x y -> rewritten c d (l ++ x) (l ++ y).
Proof.
  intros Hq. induction l as [|o l IH]; intros H x y R; [exact R|]. cbn [app]. apply rewritten_same; [|apply IH; auto; intros; apply H; now right].
  split; [unfold alike; now destruct (so_kind Ccring o)|]. split; [reflexivity|]. destruct (placed_wf Ccring c o (H o (or_introl eq_refl))) as (ts & _ & Hp & _).
  exists ts. split; [exact Hp|]. unfold placed in *. now rewrite Hq.
Qed.
Theorem inverse_removed c P A S qs cond : wf_circ c -> sc_ops Ccring c = P ++ map (on qs cond) (A ++ inverse A) ++ S -> picked (length qs) A -> NoDup qs -> incl qs (sc_qubits Ccring c) ->
  let d := mkScirc Ccring (sc_qubits Ccring c) (P ++ S) in wf_circ d /\ rewritten c d (sc_ops Ccring c) (sc_ops Ccring d).
Proof.
  intros (Hnd & Hne & Hops) Ho HA Hqs Hin d. split.
  - split; [exact Hnd|]. split; [exact Hne|]. intros o H. change (wf_op c o). apply Hops. rewrite Ho. cbn in H. apply in_app_or in H. apply in_or_app. destruct H; [now left|]. right. apply in_or_app. now right.
  - rewrite Ho. cbn [d sc_ops]. apply rewritten_own; [reflexivity|intros o H; apply Hops; rewrite Ho; apply in_or_app; now left|].
    apply (rewritten_part c d cond _ [] S S).
    + intros o H. rewrite app_nil_r in H. apply in_map_iff in H. destruct H as (s & <- & _). split; [reflexivity|apply lib_kind].
    + exact (inverse_effect c A qs cond HA Hnd Hqs Hin).
    + rewrite <- (app_nil_r S). apply rewritten_own; [reflexivity| |constructor]. intros o H. apply Hops. rewrite Ho. apply in_or_app. right. apply in_or_app. now right.
Qed.
Theorem inverse_removed_simulate c P A S qs cond : wf_circ c -> unitary_circ c -> sc_ops Ccring c = P ++ map (on qs cond) (A ++ inverse A) ++ S -> picked (length qs) A -> NoDup qs ->
  incl qs (sc_qubits Ccring c) -> num_qubits Ccring c <= 30 -> let d := mkScirc Ccring (sc_qubits Ccring c) (P ++ S) in
  forall rnd (m : mem Ccring), (forall k, uniform (rnd k)) ->
  exists m1 a m2 a' z, simulate_C rnd c false false m = (m1, Ok (SVec Ccring a)) /\ simulate_C rnd d false false m = (m2, Ok (SVec Ccring a')) /\
    (forall b, m_bits Ccring m2 b = m_bits Ccring m1 b) /\ m_pos Ccring m2 = m_pos Ccring m1 /\ phased (num_qubits Ccring c) z a a'.
Proof.
  intros Hw Hu Ho HA Hqs Hin Hn d rnd m Hr. destruct (inverse_removed c P A S qs cond Hw Ho HA Hqs Hin) as (Hd & R).
  apply (rewritten_simulate c d Hw Hd Hu); auto. intros o H. apply Hu. rewrite Ho. cbn in H. apply in_app_or in H. apply in_or_app. destruct H; [now left|]. right. apply in_or_app. now right.
Qed.

(** Taking back in the same order. *)
Definition same_order : scirc Ccring := mkScirc Ccring [0%nat] (map (on [0%nat] []) (map one [GHadamard; GZ; GHadamard; GZ])).
Lemma same_order_wf : wf_circ same_order.
Proof.
  split; [repeat constructor; cbn; auto|]. split; [discriminate|]. intros o H.
  assert (N1 : NoDup [0%nat]) by (repeat constructor; cbn; auto).
  refine (proj1 (steps_fine same_order [0%nat] [] [0] N1 _ (map one [GHadamard; GZ; GHadamard; GZ]) _ o H)); repeat constructor; cbn; auto.
Qed.
Lemma same_order_state rnd (m : mem Ccring) : exists w, simulate_C rnd same_order false false m = (m, Ok (SVec Ccring w)) /\ w 0 = C0.
Proof.
  assert (Hm : measurement_free same_order). { intros o H. apply in_map_iff in H. destruct H as (s & <- & _). apply lib_kind. }
  destruct (simulate_runs Ccring R Cgtb Cis0 Cinvsqrt rnd same_order false m same_order_wf Hm ltac:(cbn; lia)) as (w & E & H). exists w. split; [exact E|].
  assert (N1 : NoDup [0%nat]) by (repeat constructor; cbn; auto).
  destruct (runs_steps same_order (m_bits Ccring m) [0%nat] [] [0] (map one [GHadamard; GZ; GHadamard; GZ]) N1 N1 ltac:(repeat constructor) ltac:(repeat constructor; cbn; auto) _ _ H) as (_ & I).
  rewrite I; [|intros (b & [] & _)|reflexivity]. change (num_qubits Ccring same_order) with 1. rewrite ones_act by reflexivity.
  unfold op_apply. cbn [forallb length]. change (Nrange (2 ^ N.of_nat 1)) with [0; 1]. change (read false 1 0 [0]) with 0.
  change (write false 1 0 [0] 0) with 0. change (write false 1 0 [0] 1) with 1. unfold zero_state. cbn [sumf fold_right N.eqb r0 r1 radd rmul Ccring].
  assert (P : product [GHadamard; GZ; GHadamard; GZ] 0 0 = C0).
  { destruct had00 as (A & B & D & F). destruct product_nil as (A' & B' & D' & F'). rewrite !product_cons, ?A, ?B, ?D, ?F, ?A', ?B', ?D', ?F'. unfold matrix1, lit; cbn [N.to_nat Pos.to_nat Pos.iter_op Nat.add nth]. ceq; ring. }
  rewrite P. ceq; ring.
Qed.

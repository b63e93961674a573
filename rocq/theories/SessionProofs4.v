(** The theorems of C76. *)
From Coq Require Import List NArith ZArith Arith String Bool Lia Reals.
From Verif Require Import Py CRing Cplx KernelSpec SimModel SimSpec SimProofs SimProofs2 SimProofs3 SimProofs4 SimReal GateModel StateModel StateSpec StateProofs
  RegisterModel WorldModel WorldSpec WorldSpec4 WorldInv WorldInv7 WorldCheck LinkModel LinkSpec LinkProofs SessionModel SessionSpec SessionProofs SessionProofs2 SessionProofs3.
Import ListNotations.
Local Open Scope nat_scope.
Local Open Scope string_scope.

Section Main.
Variable ptrue : R -> bool.
Variable peqb : R -> R -> bool.
Variable extra : list cls.
Variable p : sprog.
Variable s : session.
Variable c : nat.
Variable x : circ.
Variable rnd : nat -> R.
Hypothesis He : sexecutes ptrue peqb (own_ok R) p (begin (library_classes ++ extra)%list).
Hypothesis Hv : svisits ptrue peqb p (begin (library_classes ++ extra)%list) s.
Hypothesis Hsm : small R (s_w s).
Hypothesis Hc : nth_error (w_circ (s_w s)) c = Some x.
Hypothesis Hrd : forall o y, In o (c_ops x) -> nth_error (w_op (s_w s)) o = Some y -> ready (s_w s) x o y.
Hypothesis Hu : forall k, uniform (rnd k).

Lemma session_world : exists q, executes R ptrue peqb (own_ok R) q (start R (library_classes ++ extra)%list) /\
  visits R ptrue peqb q (start R (library_classes ++ extra)%list) (s_w s).
Proof.
  destruct (refine ptrue peqb p (begin (library_classes ++ extra)%list)) as (q & _ & V & O). exists q. split.
  - apply O; auto; intros; repeat split; auto.
  - now apply V.
Qed.

Let n := List.length (circuit_qubits x).
Hypothesis Hn1 : 1 <= n.

Lemma session_seen : exists sc, seen (s_w s) c = Some sc /\ SimModel.num_qubits Ccring sc = N.of_nat n /\
  Forall2 (shown (s_w s)) (c_ops x) (sc_ops Ccring sc) /\ wf_circ sc /\ unitary_circ sc.
Proof.
  destruct session_world as (q & Q1 & Q2).
  destruct (link_seen ptrue peqb extra q (s_w s) Q1 Q2 Hsm c x Hc Hrd) as (sc & E1 & E2 & E3 & E4 & E5).
  { intros H. unfold n in Hn1. rewrite H in Hn1. cbn in Hn1. lia. }
  exists sc. repeat split; auto; try apply E4. unfold SimModel.num_qubits, n. now rewrite E2, map_length.
Qed.

(** The bits, in terms of the heap. *)
Lemma bits_found b : m_bits Ccring (found s) b = bit_value R (s_w s) b.
Proof. reflexivity. Qed.

Section Pure.
Hypothesis Hn30 : n <= 30.
Lemma session_simulates : exists s' a, sim c false false rnd s = (s', Ok tt) /\
  s_st s' c = mkCst (Some (mkArr [2 ^ N.of_nat n]%N a)) None /\ normalised (N.of_nat n) a /\
  (forall c', c' <> c -> s_st s' c' = s_st s c') /\ same_but_bits c (s_w s) (s_w s') /\
  (forall o b, In o (c_ops x) -> always (s_w s) o -> stores (s_w s) o b -> b < List.length (w_bit (s_w s)) -> bit_value R (s_w s') b <> None) /\
  (forall b, (forall o, In o (c_ops x) -> ~ stores (s_w s) o b) -> bit_value R (s_w s') b = bit_value R (s_w s) b) /\
  (forall o, In o (c_ops x) -> measures (s_w s) o -> always (s_w s) o -> s_mst s' o <> None) /\
  (forall o, ~ In o (c_ops x) -> s_mst s' o = s_mst s o /\ s_idx s' o = s_idx s o) /\
  (settled (s_w s) (c_ops x) -> exists s2, sim c false false rnd s' = (s2, Ok tt) /\ s_w s2 = s_w s' /\ forall c', s_st s2 c' = s_st s' c').
Proof.
  destruct session_seen as (sc & Es & En & Ef & Ew & Eu).
  assert (L30 : (SimModel.num_qubits Ccring sc <= 30)%N) by (rewrite En; lia).
  destruct (simulate_sets_state rnd sc false (found s) (s_st s c) Hu Ew Eu L30 ltac:(discriminate)) as (m & a & E1 & E2 & E3).
  rewrite En in E1, E3.
  set (s' := mkSession (put_bits (m_bits Ccring m) (fst (qubits c (s_w s)))) (set_at c (mkCst (Some (mkArr [2 ^ N.of_nat n]%N a)) None) (s_st s))
                       (m_state Ccring m) (m_idx Ccring m)).
  assert (Esim : sim c false false rnd s = (s', Ok tt)) by (unfold sim; rewrite Es, E1; reflexivity).
  assert (Hq : exists q qs, sc_qubits Ccring sc = q :: qs) by (destruct Ew as (_ & H & _); destruct (sc_qubits Ccring sc); [congruence|eauto]).
  destruct Hq as (q0 & qs0 & Hq).
  assert (Er : run_pure Ccring R Cgtb Cis0 Cinvsqrt rnd sc false (sc_ops Ccring sc) (found s) (zero_state Ccring) = (m, Ok a)).
  { unfold simulate_C, simulate in E2. rewrite Hq in E2.
    destruct (run_pure Ccring R Cgtb Cis0 Cinvsqrt rnd sc false (sc_ops Ccring sc) (found s) (zero_state Ccring)) as [m' [v|e]]; [|discriminate].
    cbn in E2. now injection E2 as <- <-. }
  pose proof (qubits_bits c (s_w s)) as Eb.
  assert (Hval : forall b, b < List.length (w_bit (s_w s)) -> bit_value R (s_w s') b = m_bits Ccring m b).
  { intros b Hb. cbn [s' s_w]. apply put_value. now rewrite Eb. }
  destruct (run_writes_one Ccring R Cgtb Cis0 Cinvsqrt rnd sc false (sc_ops Ccring sc) (found s) (zero_state Ccring)) as (m0 & r0 & u & Er0 & Hb & W1 & W2).
  rewrite Er in Er0. injection Er0 as <- <-.
  exists s', a. split; [exact Esim|]. split; [cbn; unfold set_at; now rewrite Nat.eqb_refl|]. split; [exact E3|].
  split; [intros c' Hc'; cbn; unfold set_at; apply Nat.eqb_neq in Hc'; now rewrite Hc'|].
  split; [apply qubits_same|]. split; [|split; [|split; [|split]]].
  - intros o b Ho Ha Hst Hlt. rewrite Hval by exact Hlt. rewrite Hb. unfold over.
    destruct (F2_left _ _ _ Ef o Ho) as (so & Hso & Hsh).
    pose proof (W2 eq_refl so b Hso (proj1 (shown_always _ _ _ Hsh) Ha) (proj1 (shown_stores _ _ _ b Hsh) Hst)) as Hne.
    destruct (u b); congruence.
  - intros b Hno. assert (Hnone : u b = None).
    { destruct (u b) eqn:Eub; [|reflexivity]. exfalso. destruct (W1 b) as (so & Hso & Hst); [congruence|].
      destruct (F2_right _ _ _ Ef so Hso) as (o & Ho & Hsh). apply (Hno o Ho). now apply (shown_stores _ _ _ b Hsh). }
    destruct (Nat.lt_ge_cases b (List.length (w_bit (s_w s)))) as [Hlt|Hge].
    + rewrite Hval by exact Hlt. rewrite Hb. unfold over. now rewrite Hnone.
    + cbn [s' s_w]. rewrite put_value_out by (now rewrite Eb). unfold bit_value. apply nth_error_None in Hge. now rewrite Hge.
  - intros o Ho Hm Ha. cbn [s' s_mst]. destruct (F2_left _ _ _ Ef o Ho) as (so & Hso & Hsh).
    destruct (shown_op _ _ _ Hsh) as (_ & _ & _ & _ & _ & _ & _ & _ & [(bs & Ek & _)|[Hk _]]);
      [|apply (shown_measures _ _ _ Hsh) in Hm; congruence].
    apply (shown_always _ _ _ Hsh) in Ha. revert Er Hso. clear -Ek Ha. generalize (sc_ops Ccring sc). intros ops Er Hso.
    destruct (in_split _ _ Hso) as (l1 & l2 & ->). rewrite run_pure_app in Er.
    destruct (run_pure Ccring R Cgtb Cis0 Cinvsqrt rnd sc false l1 (found s) (zero_state Ccring)) as [m1 [v1|]]; [|discriminate].
    cbn [run_pure] in Er. destruct (target_indices Ccring sc so) as [ts|]; [|discriminate].
    destruct (apply_instruction Ccring R Cgtb Cis0 Cinvsqrt rnd (SimModel.num_qubits Ccring sc) false false so ts m1 v1) as [m2 [v2|]] eqn:E2; [|discriminate].
    assert (H2 : m_state Ccring m2 o <> None).
    { unfold apply_instruction in E2. unfold is_blocked in E2. rewrite Ha, Ek in E2. cbn in E2. unfold measure in E2.
      apply measure_attrs in E2. destruct E2 as [_ E2]. rewrite E2. cbn. rewrite Nat.eqb_refl. discriminate. }
    assert (Keep : forall ops (ma : SimModel.mem Ccring) va, m_state Ccring ma o <> None ->
      m_state Ccring (fst (run_pure Ccring R Cgtb Cis0 Cinvsqrt rnd sc false ops ma va)) o <> None).
    { clear. induction ops as [|so ops IH]; intros ma va H; cbn [run_pure]; [exact H|].
      destruct (target_indices Ccring sc so) as [ts|]; [|exact H].
      assert (Hk : m_state Ccring (fst (apply_instruction Ccring R Cgtb Cis0 Cinvsqrt rnd (SimModel.num_qubits Ccring sc) false false so ts ma va)) o <> None).
      { destruct (is_measure (so_kind Ccring so)) eqn:Em.
        - destruct (so_kind Ccring so) as [mid bs| | | | |] eqn:Ek; try discriminate.
          destruct (Nat.eq_dec mid o) as [->|Hne].
          + unfold apply_instruction. destruct (is_blocked Ccring ma so); [exact H|]. rewrite Ek. unfold measure.
            assert (A : forall ts idx (mb : SimModel.mem Ccring) vb, m_state Ccring mb o <> None ->
              m_state Ccring (fst (measure_loop Ccring R Cgtb Cis0 Cinvsqrt rnd (SimModel.num_qubits Ccring sc) o bs idx ts mb vb)) o <> None).
            { clear. induction ts as [|t ts IH]; intros idx mb vb H; cbn [measure_loop]; [exact H|].
              destruct (sample_qubit _ _ _ _ _ _ _ _ _ _ _) as [[[k w] v1]|e]; [|exact H]. apply IH.
              destruct bs as [bs|]; [destruct (nth_error bs idx)|]; destruct w; exact H. }
            apply A. cbn. rewrite Nat.eqb_refl. discriminate.
          + rewrite (proj2 (apply_frame Ccring R Cgtb Cis0 Cinvsqrt rnd (SimModel.num_qubits Ccring sc) false false so ts ma va o ltac:(intros b0; rewrite Ek; congruence))).
            exact H.
        - rewrite apply_gate_mem by exact Em. exact H. }
      destruct (apply_instruction Ccring R Cgtb Cis0 Cinvsqrt rnd (SimModel.num_qubits Ccring sc) false false so ts ma va) as [m1 [v1|e]]; [|exact Hk].
      now apply IH. }
    specialize (Keep l2 m2 v2 H2). now rewrite Er in Keep.
  - intros o Ho. cbn [s' s_mst s_idx]. 
    pose proof (run_frame Ccring R Cgtb Cis0 Cinvsqrt rnd sc false (sc_ops Ccring sc) o) as F. cbv zeta in F.
    destruct (fun H => F H (found s) (zero_state Ccring)) as [F1 F2].
    { intros so Hso bits Ek. destruct (F2_right _ _ _ Ef so Hso) as (o' & Ho' & Hsh). 
      destruct (shown_op _ _ _ Hsh) as (_ & _ & _ & _ & _ & _ & _ & _ & [(bs & Ek' & _)|[Hk _]]); [|rewrite Ek in Hk; discriminate].
      rewrite Ek in Ek'. injection Ek' as <- _. contradiction. }
    rewrite Er in F1, F2. cbn in F1, F2. auto.
  - intros Hset.
    set (D := filter (fun b => negb (existsb (Nat.eqb b) (flat_map (@stored_bits Ccring) (sc_ops Ccring sc)))) (flat_map (so_cond Ccring) (sc_ops Ccring sc))).
    assert (Hnot : forall b, In b D -> u b = None).
    { intros b Hbd. apply filter_In in Hbd. destruct Hbd as [_ Hbd]. apply Bool.negb_true_iff in Hbd.
      destruct (u b) eqn:Eub; [|reflexivity]. exfalso. destruct (W1 b) as (so & Hso & Hst); [congruence|].
      assert (existsb (Nat.eqb b) (flat_map (@stored_bits Ccring) (sc_ops Ccring sc)) = true); [|congruence].
      apply existsb_exists. exists b. split; [apply in_flat_map; eauto|apply Nat.eqb_refl]. }
    assert (Cs : conditions_set D (sc_ops Ccring sc)).
    { apply (settled_conditions (s_w s) (c_ops x)); [exact Ef|]. intros before o after b E Ha.
      destruct (Hset before o after b E Ha) as [Hex|Hno]; [now right|left].
      assert (Ho : In o (c_ops x)) by (rewrite E; apply in_or_app; right; now left).
      destruct (F2_left _ _ _ Ef o Ho) as (so & Hso & Hsh). apply filter_In. split.
      - apply in_flat_map. exists so. split; [exact Hso|]. now apply (shown_asks _ _ _ b Hsh).
      - apply Bool.negb_true_iff. destruct (existsb _ _) eqn:Ex; [|reflexivity]. exfalso.
        apply existsb_exists in Ex. destruct Ex as (b' & Hin & Hb'). apply Nat.eqb_eq in Hb'. subst b'.
        apply in_flat_map in Hin. destruct Hin as (so' & Hso' & Hst).
        destruct (F2_right _ _ _ Ef so' Hso') as (o' & Ho' & Hsh'). apply (Hno o' Ho'). now apply (shown_stores _ _ _ b Hsh'). }
    destruct (run_writes Ccring R Cgtb Cis0 Cinvsqrt rnd sc false (sc_ops Ccring sc) D (found s) (found s') (zero_state Ccring))
      as (m1 & m2 & r & u2 & G1 & G2 & B1 & B2 & _).
    { split; [reflexivity|]. intros b HbD. change (m_bits Ccring (found s') b) with (bit_value R (s_w s') b).
      destruct (Nat.lt_ge_cases b (List.length (w_bit (s_w s)))) as [Hlt|Hge].
      - rewrite Hval by exact Hlt. rewrite Hb. unfold over. now rewrite (Hnot b HbD).
      - cbn [s' s_w]. rewrite put_value_out by (now rewrite Eb). cbn. unfold bit_value. apply nth_error_None in Hge. now rewrite Hge. }
    { exact Cs. }
    rewrite Er in G1. injection G1 as <- <-.
    assert (Es' : seen (s_w s') c = Some sc) by (cbn [s' s_w]; now apply seen_again).
    destruct (seen_qubits _ _ _ Es) as (_ & rg & _ & Eq).
    exists (mkSession (put_bits (m_bits Ccring m2) (s_w s')) (set_at c (mkCst (Some (mkArr [2 ^ N.of_nat n]%N a)) None) (s_st s')) (m_state Ccring m2) (m_idx Ccring m2)).
    split; [|split].
    + unfold sim. rewrite Es'.
      assert (Eset : simulate_set rnd sc false false (found s') (s_st s' c) = (m2, mkCst (Some (mkArr [2 ^ N.of_nat n]%N a)) None, Ok tt)).
      { unfold simulate_set, simulate_C, simulate. rewrite Hq. rewrite G2. cbn [Py.bind out_arr]. rewrite set_state_vec by (auto using num_qubits_pos; rewrite En; exact E3).
        now rewrite En. }
      rewrite Eset. cbn [s' s_w]. rewrite (qubits_cached c (s_w s) (m_bits Ccring m) rg Eq). reflexivity.
    + cbn [s_w s']. apply put_put. intros b Hlt. rewrite B2. unfold over. destruct (u2 b) as [v|] eqn:Eu2.
      * rewrite B1. unfold over. now rewrite Eu2.
      * change (m_bits Ccring (found s') b) with (bit_value R (s_w s') b). apply put_value. exact Hlt.
    + intros c'. cbn [s_st s']. unfold set_at. destruct (Nat.eqb c' c); reflexivity.
Qed.

(** Big-endian and little-endian simulation of a circuit without measurements. *)
Lemma session_little : (forall o, In o (c_ops x) -> ~ measures (s_w s) o) ->
  exists s1 s2 a b, sim c false false rnd s = (s1, Ok tt) /\ sim c false true rnd s = (s2, Ok tt) /\
    s_st s1 c = mkCst (Some (mkArr [2 ^ N.of_nat n]%N a)) None /\ s_st s2 c = mkCst (Some (mkArr [2 ^ N.of_nat n]%N b)) None /\
    s_w s1 = s_w s2 /\ w_bit (s_w s2) = w_bit (s_w s) /\
    forall i, (i < 2 ^ N.of_nat n)%N -> b i = a (bitrev (N.of_nat n) i).
Proof.
  intros Hno. destruct session_seen as (sc & Es & En & Ef & Ew & Eu).
  assert (L30 : (SimModel.num_qubits Ccring sc <= 30)%N) by (rewrite En; lia).
  assert (Mf : measurement_free sc).
  { intros so Hso. destruct (F2_right _ _ _ Ef so Hso) as (o & Ho & Hsh). destruct (is_measure (so_kind Ccring so)) eqn:Em; [|reflexivity].
    exfalso. apply (Hno o Ho). now apply (shown_measures _ _ _ Hsh). }
  destruct (simulate_sets_state rnd sc false (found s) (s_st s c) Hu Ew Eu L30 ltac:(discriminate)) as (m & a & E1 & E2 & _).
  destruct (simulate_sets_state rnd sc true (found s) (s_st s c) Hu Ew Eu L30 (fun _ => Mf)) as (m' & b & F1 & F2 & _).
  destruct (simulate_runs Ccring R Cgtb Cis0 Cinvsqrt rnd sc false (found s) Ew Mf L30) as (v1 & V1 & _).
  destruct (simulate_runs Ccring R Cgtb Cis0 Cinvsqrt rnd sc true (found s) Ew Mf L30) as (v2 & V2 & _).
  pose proof (eq_trans (eq_sym V1) E2) as Q1. pose proof (eq_trans (eq_sym V2) F2) as Q2. injection Q1 as <- <-. injection Q2 as <- <-.
  unfold sim. rewrite Es, E1, F1. eexists _, _, v1, v2. split; [reflexivity|]. split; [reflexivity|]. cbn [s_st s_w].
  unfold set_at. rewrite Nat.eqb_refl, En. split; [reflexivity|]. split; [reflexivity|]. split; [reflexivity|]. split.
  - rewrite put_same; [apply qubits_bits|]. intros b0 _. cbn. unfold bit_value. now rewrite qubits_bits.
  - rewrite <- En. now apply (simulate_endian Ccring R Cgtb Cis0 Cinvsqrt rnd sc (found s)).
Qed.

(** Little-endian simulation refuses a measurement without condition. *)
Lemma session_little_refused o : In o (c_ops x) -> measures (s_w s) o -> always (s_w s) o ->
  exists s', sim c false true rnd s = (s', Err CircuitError) /\ w_bit (s_w s') = w_bit (s_w s) /\ forall c', s_st s' c' = s_st s c'.
Proof.
  intros Ho Hm Ha. destruct session_seen as (sc & Es & En & Ef & Ew & Eu).
  assert (L30 : (SimModel.num_qubits Ccring sc <= 30)%N) by (rewrite En; lia).
  destruct (F2_left _ _ _ Ef o Ho) as (so & Hso & Hsh).
  assert (Hq : exists q qs, sc_qubits Ccring sc = q :: qs) by (destruct Ew as (_ & H & _); destruct (sc_qubits Ccring sc); [congruence|eauto]).
  destruct Hq as (q0 & qs0 & Hq). unfold sim. rewrite Es. unfold simulate_set, simulate_C, simulate. rewrite Hq.
  rewrite (run_little rnd sc (sc_ops Ccring sc) L30).
  - cbn [Py.bind]. eexists. split; [reflexivity|]. cbn [s_w s_st]. split.
    + rewrite put_same; [apply qubits_bits|]. intros b0 _. cbn. unfold bit_value. now rewrite qubits_bits.
    + intros c'. unfold set_at. destruct (Nat.eqb_spec c' c) as [->|]; reflexivity.
  - apply Ew.
  - exists so. split; [exact Hso|]. split; [now apply (shown_measures _ _ _ Hsh)|now apply (shown_always _ _ _ Hsh)].
Qed.
End Pure.

(** Density matrices. *)
Hypothesis Hn15 : n <= 15.
Lemma session_mixed le : (forall o, In o (c_ops x) -> ~ measures (s_w s) o) ->
  exists s1 s2 a rho, sim c false false rnd s = (s1, Ok tt) /\ sim c true le rnd s = (s2, Ok tt) /\
    s_st s1 c = mkCst (Some (mkArr [2 ^ N.of_nat n]%N a)) None /\
    s_st s2 c = mkCst None (Some (mkArr [2 ^ N.of_nat n; 2 ^ N.of_nat n]%N rho)) /\
    s_w s1 = s_w s2 /\ w_bit (s_w s2) = w_bit (s_w s) /\ normalised (N.of_nat n) a /\
    forall i j, (i < 2 ^ N.of_nat n)%N -> (j < 2 ^ N.of_nat n)%N -> rho (rowcol (N.of_nat n) i j) = Cmul (a i) (Cconj (a j)).
Proof.
  intros Hno. destruct session_seen as (sc & Es & En & Ef & Ew & Eu).
  assert (L30 : (2 * SimModel.num_qubits Ccring sc <= 30)%N) by (rewrite En; lia).
  assert (Mf : measurement_free sc).
  { intros so Hso. destruct (F2_right _ _ _ Ef so Hso) as (o & Ho & Hsh). destruct (is_measure (so_kind Ccring so)) eqn:Em; [|reflexivity].
    exfalso. apply (Hno o Ho). now apply (shown_measures _ _ _ Hsh). }
  destruct (simulate_sets_density rnd sc le (found s) (s_st s c) Hu Ew Eu Mf L30) as (rho & v & F1 & F2 & F3 & F4).
  destruct (simulate_sets_state rnd sc false (found s) (s_st s c) Hu Ew Eu ltac:(lia) ltac:(discriminate)) as (m & a & E1 & E2 & E3).
  rewrite F2 in E2. injection E2 as <- <-.
  unfold sim. rewrite Es, E1, F1. eexists _, _, v, rho. split; [reflexivity|]. split; [reflexivity|]. cbn [s_st s_w].
  unfold set_at. rewrite Nat.eqb_refl, En in *. split; [reflexivity|]. split; [reflexivity|]. split; [reflexivity|]. split; [|auto].
  rewrite put_same; [apply qubits_bits|]. intros b0 _. cbn. unfold bit_value. now rewrite qubits_bits.
Qed.

Lemma session_mixed_refused le o : In o (c_ops x) -> measures (s_w s) o ->
  exists s', sim c true le rnd s = (s', Err TypeError) /\ w_bit (s_w s') = w_bit (s_w s) /\ forall c', s_st s' c' = s_st s c'.
Proof.
  intros Ho Hm. destruct session_seen as (sc & Es & En & Ef & Ew & Eu).
  assert (L30 : (2 * SimModel.num_qubits Ccring sc <= 30)%N) by (rewrite En; lia).
  destruct (F2_left _ _ _ Ef o Ho) as (so & Hso & Hsh).
  pose proof (mixed_measure_fails Ccring R Cgtb Cis0 Cinvsqrt rnd sc le (found s) Ew L30 (ex_intro _ so (conj Hso (proj1 (shown_measures _ _ _ Hsh) Hm)))) as Hf.
  assert (Hq : exists q qs, sc_qubits Ccring sc = q :: qs) by (destruct Ew as (_ & H & _); destruct (sc_qubits Ccring sc); [congruence|eauto]).
  destruct Hq as (q0 & qs0 & Hq).
  assert (Hb : forall b, m_bits Ccring (fst (simulate_C rnd sc true le (found s))) b = bit_value R (s_w s) b).
  { intros b. unfold simulate_C, simulate. rewrite Hq.
    pose proof (mixed_writes Ccring R Cgtb Cis0 Cinvsqrt rnd sc (sc_ops Ccring sc) (found s) (zero_state Ccring) b) as H.
    destruct (run_mixed Ccring R Cgtb Cis0 Cinvsqrt rnd sc (sc_ops Ccring sc) (found s) (zero_state Ccring)). exact H. }
  fold (simulate_C rnd sc true le (found s)) in Hf.
  unfold sim. rewrite Es. unfold simulate_set. destruct (simulate_C rnd sc true le (found s)) as [m r]. cbn [snd fst] in Hf, Hb. rewrite Hf.
  eexists. split; [reflexivity|]. cbn [s_w s_st]. split.
  - rewrite put_same; [apply qubits_bits|]. intros b0 _. rewrite Hb. unfold bit_value. now rewrite qubits_bits.
  - intros c'. unfold set_at. destruct (Nat.eqb_spec c' c) as [->|]; reflexivity.
Qed.
End Main.

(** Conditions, determinism, mixed states with measurements, sampling. *)
From Coq Require Import List NArith Arith Bool Lia Reals Lra.
From Verif Require Import Py CRing Cplx KernelModel KernelSpec KernelBits KernelProofs KernelProofs2 SimModel SimSpec
  SimReal SimProofs SimProofs2 SimProofs3.
Import ListNotations.
Local Open Scope N_scope.

Section S.
Variable K : cring.
Variable U : Type.
Variable gtb : K -> U -> bool.
Variable is0 : K -> bool.
Variable invsqrt : K -> K.
Variable rnd : nat -> U.
Notation apply_instruction := (apply_instruction K U gtb is0 invsqrt rnd).
Notation run_pure := (run_pure K U gtb is0 invsqrt rnd).
Notation run_mixed := (run_mixed K U gtb is0 invsqrt rnd).
Notation simulate := (simulate K U gtb is0 invsqrt rnd).
Notation measure_loop := (measure_loop K U gtb is0 invsqrt rnd).
Notation mem := (mem K).
Notation sop := (sop K).

(** ** Conditions *)
Lemma apply_blocked n le conj o ts (m : mem) v : some_zero (m_bits K m) (so_cond K o) ->
  apply_instruction n le conj o ts m v = (m, Ok v).
Proof. intros H. unfold SimModel.apply_instruction. apply is_blocked_spec in H. now rewrite H. Qed.

Lemma apply_uncond n le conj o ts (m : mem) v : ~ some_zero (m_bits K m) (so_cond K o) ->
  apply_instruction n le conj o ts m v = apply_instruction n le conj (uncond o) ts m v.
Proof.
  intros H. unfold SimModel.apply_instruction. destruct (is_blocked K m o) eqn:E.
  - exfalso. apply H. now apply is_blocked_spec.
  - reflexivity.
Qed.

Theorem conditional_pure c le o ops (m : mem) v : wf_op c o ->
  (some_zero (m_bits K m) (so_cond K o) -> run_pure c le (o :: ops) m v = run_pure c le ops m v) /\
  (~ some_zero (m_bits K m) (so_cond K o) -> run_pure c le (o :: ops) m v = run_pure c le (uncond o :: ops) m v).
Proof.
  intros Hw. destruct (target_indices_wf K c o Hw) as (ts & E & _).
  assert (E' : target_indices K c (uncond o) = Ok ts) by exact E.
  split; intros H; cbn [SimModel.run_pure]; rewrite E, ?E'.
  - now rewrite apply_blocked.
  - now rewrite (apply_uncond _ _ _ _ _ _ _ H).
Qed.

Lemma apply_gate_mem n le conj o ts (m : mem) v : is_measure (so_kind K o) = false ->
  fst (apply_instruction n le conj o ts m v) = m.
Proof.
  intros H. unfold SimModel.apply_instruction. destruct (is_blocked K m o); [reflexivity|].
  destruct (so_kind K o) as [mid bits| | | |nc dim g|nq g]; try discriminate; try reflexivity.
  - destruct (negb _); [reflexivity|]. destruct nc as [|[|[|nc]]]; reflexivity.
  - destruct (negb _); reflexivity.
Qed.

Theorem conditional_mixed c o ops (m : mem) v : wf_op c o -> is_measure (so_kind K o) = false ->
  (some_zero (m_bits K m) (so_cond K o) -> run_mixed c (o :: ops) m v = run_mixed c ops m v) /\
  (~ some_zero (m_bits K m) (so_cond K o) -> run_mixed c (o :: ops) m v = run_mixed c (uncond o :: ops) m v).
Proof.
  intros Hw Hm. destruct (target_indices_wf K c o Hw) as (ts & E & _).
  assert (E' : target_indices K c (uncond o) = Ok ts) by exact E.
  assert (F : forall x, so_kind K x = so_kind K o -> target_indices K c x = Ok ts ->
    run_mixed c (x :: ops) m v =
      match apply_instruction (2 * num_qubits K c) false false x ts m v with
      | (m1, Err e) => (m1, Err e)
      | (m1, Ok v1) =>
          match apply_instruction (2 * num_qubits K c) false true x (map (fun t => t + num_qubits K c) ts) m1 v1 with
          | (m2, Ok v2) => run_mixed c ops m2 v2
          | (m2, Err e) => (m2, Err e)
          end
      end).
  { intros x Ek Et. cbn [SimModel.run_mixed]. rewrite Ek, Et. destruct (so_kind K o); [discriminate|..]; reflexivity. }
  rewrite (F o eq_refl E), (F (uncond o) eq_refl E'). split; intros H.
  - rewrite apply_blocked by exact H. now rewrite apply_blocked by exact H.
  - rewrite (apply_uncond _ _ _ _ _ _ _ H).
    pose proof (apply_gate_mem (2 * num_qubits K c) false false (uncond o) ts m v Hm) as Em.
    destruct (apply_instruction _ _ _ (uncond o) ts m v) as [m1 [v1|e]]; [|reflexivity].
    simpl in Em. subst m1. now rewrite (apply_uncond _ _ _ _ _ _ _ H).
Qed.

(** ** The same random numbers give the same result *)
Definition agree (D : list nat) (m1 m2 : mem) : Prop :=
  m_pos K m1 = m_pos K m2 /\ forall b, In b D -> m_bits K m1 b = m_bits K m2 b.

Lemma agree_blocked D m1 m2 o : agree D m1 m2 -> incl (so_cond K o) D -> is_blocked K m1 o = is_blocked K m2 o.
Proof.
  intros [_ H] Hi. unfold is_blocked. f_equal. induction (so_cond K o) as [|b l IH]; [reflexivity|]. simpl.
  unfold bit_true at 1 3. rewrite (H b) by (apply Hi; now left). f_equal. apply IH. intros x Hx. apply Hi. now right.
Qed.

Lemma agree_incl D D' m1 m2 : incl D' D -> agree D m1 m2 -> agree D' m1 m2.
Proof. intros H [H1 H2]. split; auto. Qed.

Lemma measure_agree n mid bits ts : forall idx D m1 m2 v, agree D m1 m2 ->
  exists m1' m2' r, measure_loop n mid bits idx ts m1 v = (m1', r) /\ measure_loop n mid bits idx ts m2 v = (m2', r) /\
    agree D m1' m2' /\
    (is_ok r = true ->
       agree (match bits with Some bs => firstn (length ts) (skipn idx bs) | None => [] end ++ D) m1' m2').
Proof.
  induction ts as [|t ts IH]; intros idx D m1 m2 v H.
  - exists m1, m2, (Ok v). repeat split; auto; try apply H. intros b Hb.
    destruct bits; simpl in Hb; now apply H.
  - cbn [SimModel.measure_loop]. destruct H as [Hp Hb]. rewrite <- Hp.
    destruct (sample_qubit K U gtb is0 invsqrt false n t (rnd (m_pos K m1)) true v) as [[[o w] v']|e].
    + set (st := fun m : mem => match bits with
                    | Some bs => match nth_error bs idx with
                                 | Some b => set_bit K b (Nat.eqb o 1) (if w then warn K (next_rnd K m) else next_rnd K m)
                                 | None => warn K (if w then warn K (next_rnd K m) else next_rnd K m)
                                 end
                    | None => warn K (if w then warn K (next_rnd K m) else next_rnd K m)
                    end).
      set (new := match bits with Some bs => match nth_error bs idx with Some b => [b] | None => [] end | None => [] end).
      assert (Hst : agree (new ++ D) (add_idx K mid t (st m1)) (add_idx K mid t (st m2))).
      { unfold st, new. split.
        - destruct bits as [bs|]; [destruct (nth_error bs idx)|]; destruct w; simpl; lia.
        - intros b Hin. destruct bits as [bs|]; [destruct (nth_error bs idx) as [c|]|]; destruct w; simpl in *;
            try (now apply Hb);
            (destruct (Nat.eqb_spec b c) as [->|Hne]; [reflexivity|apply Hb; destruct Hin; [congruence|assumption]]). }
      destruct (IH (S idx) (new ++ D) _ _ v' Hst) as (m1' & m2' & r & E1 & E2 & A1 & A2).
      exists m1', m2', r. split; [exact E1|]. split; [exact E2|]. split.
      * eapply agree_incl; [|exact A1]. intros b Hin. apply in_or_app. auto.
      * intros Hr. specialize (A2 Hr). eapply agree_incl; [|exact A2]. intros b Hin.
        unfold new. destruct bits as [bs|]; [|exact Hin]. apply in_app_or in Hin.
        assert (Hc : In b (firstn (length (t :: ts)) (skipn idx bs)) ->
                     In b (firstn (length ts) (skipn (S idx) bs)) \/ nth_error bs idx = Some b).
        { clear. revert bs. induction idx as [|idx IHi]; intros [|x bs]; cbn [skipn firstn length In nth_error].
          - intros [].
          - intros [->|H]; auto.
          - intros [].
          - intros H. apply (IHi bs) in H. destruct H; auto. }
        destruct Hin as [Hin|Hin].
        -- destruct (Hc Hin) as [H|H]; [apply in_or_app; auto|]. rewrite H. apply in_or_app. right. now left.
        -- apply in_or_app. right. apply in_or_app. auto.
    + exists (next_rnd K m1), (next_rnd K m2), (Err e). repeat split; auto; try discriminate. simpl. lia.
Qed.

Lemma apply_agree n le conj o ts D (m1 m2 : mem) v : agree D m1 m2 -> incl (so_cond K o) D ->
  exists m1' m2' r, apply_instruction n le conj o ts m1 v = (m1', r) /\ apply_instruction n le conj o ts m2 v = (m2', r) /\
    agree D m1' m2' /\
    (is_ok r = true -> so_cond K o = [] -> length ts = match so_qubits K o with Some qs => length qs | None => 0%nat end ->
       agree (stored_bits o ++ D) m1' m2').
Proof.
  intros H Hi. pose proof (agree_blocked D m1 m2 o H Hi) as Eb.
  destruct (is_measure (so_kind K o)) eqn:Em.
  - unfold SimModel.apply_instruction. rewrite <- Eb. destruct (is_blocked K m1 o) eqn:Eb1.
    { exists m1, m2, (Ok v). repeat split; try apply H. intros b Hb.
      unfold is_blocked in Eb1. rewrite H1 in Eb1. discriminate. }
    destruct (so_kind K o) as [mid bits| | | | |] eqn:Ek; try discriminate.
    destruct le.
    { exists m1, m2, (Err CircuitError). repeat split; try apply H. intros; discriminate. }
    unfold measure.
    destruct (measure_agree n mid bits ts 0 D (set_mstate K mid v m1) (set_mstate K mid v m2) v) as (m1' & m2' & r & E1 & E2 & A1 & A2).
    { split; apply H. }
    exists m1', m2', r. split; [exact E1|]. split; [exact E2|]. split; [exact A1|].
    intros Hr _ Hlen. eapply agree_incl; [|exact (A2 Hr)]. intros b Hb. apply in_app_or in Hb. apply in_or_app.
    destruct Hb as [Hb|Hb]; [left|now right]. unfold stored_bits in Hb. rewrite Ek in Hb.
    destruct bits as [bs|]; [|exact Hb]. cbn [skipn]. rewrite Hlen. destruct (so_qubits K o); [exact Hb|destruct Hb].
  - assert (Hr : exists r, apply_instruction n le conj o ts m1 v = (m1, r) /\ apply_instruction n le conj o ts m2 v = (m2, r)).
    { unfold SimModel.apply_instruction. rewrite <- Eb. destruct (is_blocked K m1 o); [eauto|].
      destruct (so_kind K o) as [mid bits| | | |nc dim g|nq g]; try discriminate; eauto.
      - destruct (negb _); [eauto|]. destruct nc as [|[|[|nc]]]; eauto.
      - destruct (negb _); eauto. }
    destruct Hr as (r & E1 & E2). exists m1, m2, r. repeat split; auto; try apply H.
    intros b Hb. unfold stored_bits in Hb. destruct (so_kind K o); [discriminate|..]; now apply H.
Qed.

Lemma run_pure_agree c le ops : forall D m1 m2 v, agree D m1 m2 -> conditions_set D ops ->
  exists m1' m2' r, run_pure c le ops m1 v = (m1', r) /\ run_pure c le ops m2 v = (m2', r) /\
    (is_ok r = true -> agree (determined D ops) m1' m2').
Proof.
  induction ops as [|o ops IH]; intros D m1 m2 v H Hc.
  - exists m1, m2, (Ok v). repeat split; try (now apply H).
  - destruct Hc as [Hi Hc]. cbn [SimModel.run_pure determined].
    destruct (target_indices K c o) as [ts|e] eqn:Et; [|exists m1, m2, (Err e); repeat split; discriminate].
    destruct (apply_agree (num_qubits K c) le false o ts D m1 m2 v H Hi) as (m1' & m2' & r & E1 & E2 & A1 & A2).
    rewrite E1, E2. destruct r as [v'|e]; [|exists m1', m2', (Err e); repeat split; discriminate].
    apply IH; [|exact Hc]. destruct (so_cond K o) eqn:Eo; [|exact A1]. apply A2; auto.
    unfold target_indices in Et. destruct (so_qubits K o) as [qs|]; [|discriminate].
    clear -Et. revert ts Et. induction qs as [|q qs IHq]; intros ts Et; simpl in Et; [now injection Et as <-|].
    destruct (index_of q (sc_qubits K c)); [|discriminate]. simpl in Et.
    destruct (mapM _ qs) as [l|] eqn:El; simpl in Et; [|discriminate]. injection Et as <-. simpl. f_equal. now apply IHq.
Qed.

Theorem simulate_deterministic c le (m1 m2 : mem) D : m_pos K m1 = m_pos K m2 ->
  (forall b, In b D -> m_bits K m1 b = m_bits K m2 b) -> conditions_set D (sc_ops K c) ->
  snd (simulate c false le m1) = snd (simulate c false le m2) /\
  (is_ok (snd (simulate c false le m1)) = true -> sc_qubits K c <> [] ->
   forall b, In b (determined D (sc_ops K c)) ->
     m_bits K (fst (simulate c false le m1)) b = m_bits K (fst (simulate c false le m2)) b).
Proof.
  intros Hp Hb Hc. unfold SimModel.simulate. destruct (sc_qubits K c) as [|q qs]; [split; [reflexivity|congruence]|].
  destruct (run_pure_agree c le (sc_ops K c) D m1 m2 (zero_state K) (conj Hp Hb) Hc) as (m1' & m2' & r & E1 & E2 & A).
  rewrite E1, E2. split; [reflexivity|]. simpl. intros Hr _. apply A. now destruct r.
Qed.

(** ** Mixed states and measurements *)
Lemma run_mixed_measure c ops (m : mem) : 2 * num_qubits K c <= 30 ->
  (forall o, In o ops -> wf_op c o) ->
  (exists o, In o ops /\ is_measure (so_kind K o) = true) ->
  forall v, snd (run_mixed c ops m v) = Err TypeError.
Proof.
  intros Hn. revert m. induction ops as [|o ops IH]; intros m Hw (x & Hx & Hm) v; [destruct Hx|].
  destruct (is_measure (so_kind K o)) eqn:Em.
  - cbn [SimModel.run_mixed]. destruct (so_kind K o); try discriminate. reflexivity.
  - assert (Hx' : exists o, In o ops /\ is_measure (so_kind K o) = true).
    { destruct Hx as [->|Hx]; [congruence|eauto]. }
    assert (Hwo : wf_op c o) by (apply Hw; now left).
    destruct (placed_wf K c o Hwo) as (ts & E & Hp & Hl & Hnd & Ha). specialize (Hnd Em).
    assert (Hs : supported (so_kind K o)) by (destruct Hwo as (? & _ & _ & _ & _ & ?); assumption).
    cbn [SimModel.run_mixed]. rewrite E.
    assert (Happ : forall cj ts' v, good_targets (2 * num_qubits K c) ts' -> length ts' = length ts ->
      exists v', apply_instruction (2 * num_qubits K c) false cj o ts' m v = (m, Ok v')).
    { intros cj ts' v0 Hg Hlen. destruct (is_blocked K m o) eqn:Eb.
      - exists v0. unfold SimModel.apply_instruction. now rewrite Eb.
      - destruct (apply_gate K U gtb is0 invsqrt rnd (2 * num_qubits K c) false cj o ts' m v0 Hn Eb Em Hs) as (v' & Ev & _); auto.
        + intros a Hara. rewrite Hlen. auto.
        + eauto. }
    destruct (Happ false ts v) as (v1 & E1); [split; [auto|intros t Ht; specialize (Hl t Ht); lia]|reflexivity|].
    destruct (Happ true (map (fun t => t + num_qubits K c) ts) v1) as (v2 & E2).
    { split; [apply FinFun.Injective_map_NoDup; [intros a b; lia|auto]|].
      intros t Ht. apply in_map_iff in Ht. destruct Ht as (y & <- & Hy). specialize (Hl y Hy). lia. }
    { now rewrite map_length. }
    rewrite E1, E2. destruct (so_kind K o) eqn:Ek; [discriminate|..];
      (apply IH; [intros y Hy; apply Hw; now right|exact Hx']).
Qed.

Theorem mixed_measure_fails c le (m : mem) : wf_circ c -> 2 * num_qubits K c <= 30 ->
  (exists o, In o (sc_ops K c) /\ is_measure (so_kind K o) = true) ->
  snd (simulate c true le m) = Err TypeError.
Proof.
  intros (_ & Hne & Hw) Hn Hx. unfold SimModel.simulate. destruct (sc_qubits K c) eqn:Eq; [congruence|].
  pose proof (run_mixed_measure c (sc_ops K c) m Hn Hw Hx (zero_state K)) as H.
  destruct (run_mixed c (sc_ops K c) m (zero_state K)) as [m' r]. simpl in *. now rewrite H.
Qed.

(** ** The attributes of a measurement *)
Lemma measure_attrs n mid bits ts : forall idx (m : mem) v m' v',
  measure_loop n mid bits idx ts m v = (m', Ok v') ->
  m_idx K m' mid = m_idx K m mid ++ ts /\ m_state K m' mid = m_state K m mid.
Proof.
  induction ts as [|t ts IH]; intros idx m v m' v' E; cbn [SimModel.measure_loop] in E.
  - injection E as <- <-. now rewrite app_nil_r.
  - destruct (sample_qubit _ _ _ _ _ _ _ _ _ _ _) as [[[o w] v1]|e]; [|discriminate].
    apply IH in E. destruct E as [E1 E2]. rewrite E1, E2.
    destruct bits as [bs|]; [destruct (nth_error bs idx)|]; destruct w; simpl; rewrite Nat.eqb_refl, <- app_assoc; auto.
Qed.

Lemma measure_frame n mid mid' bits ts : mid <> mid' -> forall idx (m : mem) v,
  let m' := fst (measure_loop n mid bits idx ts m v) in
  m_idx K m' mid' = m_idx K m mid' /\ m_state K m' mid' = m_state K m mid'.
Proof.
  intros Hne. induction ts as [|t ts IH]; intros idx m v; cbn [SimModel.measure_loop]; [split; reflexivity|].
  destruct (sample_qubit _ _ _ _ _ _ _ _ _ _ _) as [[[o w] v1]|e]; [|split; reflexivity].
  match goal with |- context [measure_loop n mid bits (S idx) ts ?M v1] => destruct (IH (S idx) M v1) as [E1 E2] end.
  cbv zeta in *. rewrite E1, E2.
  destruct bits as [bs|]; [destruct (nth_error bs idx)|]; destruct w; simpl;
    (destruct (Nat.eqb_spec mid' mid); [congruence|]; split; reflexivity).
Qed.

Lemma apply_frame n le conj o ts (m : mem) v mid : (forall bits, so_kind K o <> KMeasure K mid bits) ->
  let m' := fst (apply_instruction n le conj o ts m v) in
  m_idx K m' mid = m_idx K m mid /\ m_state K m' mid = m_state K m mid.
Proof.
  intros H. destruct (is_measure (so_kind K o)) eqn:Em.
  - cbv zeta. unfold SimModel.apply_instruction. destruct (is_blocked K m o); [split; reflexivity|].
    destruct (so_kind K o) as [mid' bits| | | | |] eqn:Ek; try discriminate. destruct le; [split; reflexivity|].
    assert (Hne : mid' <> mid) by (intros ->; now apply (H bits)).
    unfold measure. destruct (measure_frame n mid' mid bits ts Hne 0 (set_mstate K mid' v m) v) as [E1 E2].
    rewrite E1, E2. simpl. destruct (Nat.eqb_spec mid mid'); [congruence|]. split; reflexivity.
  - cbv zeta. now rewrite apply_gate_mem.
Qed.

Lemma run_frame c le ops mid : (forall o, In o ops -> forall bits, so_kind K o <> KMeasure K mid bits) ->
  forall (m : mem) v, let m' := fst (run_pure c le ops m v) in
  m_idx K m' mid = m_idx K m mid /\ m_state K m' mid = m_state K m mid.
Proof.
  induction ops as [|o ops IH]; intros H m v; cbn [SimModel.run_pure]; [split; reflexivity|].
  destruct (target_indices K c o) as [ts|e]; [|split; reflexivity].
  destruct (apply_frame (num_qubits K c) le false o ts m v mid) as [F1 F2]; [apply H; now left|].
  destruct (apply_instruction (num_qubits K c) le false o ts m v) as [m1 [v1|e]]; simpl in F1, F2; [|split; auto].
  destruct (IH (fun x Hx => H x (or_intror Hx)) m1 v1) as [G1 G2]. cbv zeta in *. rewrite G1, G2. auto.
Qed.

Lemma run_pure_app c le ops1 ops2 : forall (m : mem) v,
  run_pure c le (ops1 ++ ops2) m v
  = match run_pure c le ops1 m v with (m', Ok v') => run_pure c le ops2 m' v' | (m', Err e) => (m', Err e) end.
Proof.
  induction ops1 as [|o ops IH]; intros m v; [reflexivity|]. cbn [app SimModel.run_pure].
  destruct (target_indices K c o); [|reflexivity].
  destruct (apply_instruction _ _ _ _ _ _ _) as [m1 [v1|e]]; [apply IH|reflexivity].
Qed.
End S.

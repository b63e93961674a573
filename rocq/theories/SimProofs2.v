(** Measurement-free circuits. *)
From Coq Require Import List NArith Arith Bool Lia Ring.
From Verif Require Import Py CRing KernelModel KernelSpec KernelBits KernelProofs KernelProofs2 SimModel SimSpec SimProofs.
Import ListNotations.
Local Open Scope N_scope.

Section S.
Variable K : cring.
Add Ring KringS2 : (r_theory K).
Notation kind := (kind K).
Variable U : Type.
Variable gtb : K -> U -> bool.
Variable is0 : K -> bool.
Variable invsqrt : K -> K.
Variable rnd : nat -> U.
Notation apply_instruction := (apply_instruction K U gtb is0 invsqrt rnd).
Notation run_pure := (run_pure K U gtb is0 invsqrt rnd).
Notation run_mixed := (run_mixed K U gtb is0 invsqrt rnd).
Notation simulate := (simulate K U gtb is0 invsqrt rnd).
Notation mem := (mem K).

Definition good_kind (k : kind) (ts : list N) : Prop :=
  is_measure k = false /\ supported k /\ (forall a, arity k = Some a -> length ts = a).

Lemma good_kop k ts : good_kind k ts -> exists G T Cs, kop K k ts = Some (G, T, Cs).
Proof. intros (H1 & H2 & H3). destruct (kop_some K k ts H1 H2 H3) as ([[G T] Cs] & E). eauto. Qed.

Lemma kop_lt n k ts G T Cs : kop K k ts = Some (G, T, Cs) -> good_targets n ts ->
  (forall q, In q (T ++ Cs) -> q < n) /\ NoDup (T ++ Cs) /\ (forall q, In q T -> q < n).
Proof.
  intros Hk [Hn Hl]. destruct (kop_targets K _ _ _ _ _ Hk Hn) as [H1 H2].
  split; [|split]; auto. intros q Hq. apply Hl, H2, in_or_app. auto.
Qed.

Lemma gate_action_ext le n k ts v w i : good_kind k ts -> good_targets n ts -> i < 2 ^ n ->
  (forall j, j < 2 ^ n -> v j = w j) -> gate_action le n k ts v i = gate_action le n k ts w i.
Proof.
  intros Hk Hg Hi H. destruct (good_kop k ts Hk) as (G & T & Cs & E).
  rewrite !(kop_action K le n k ts G T Cs) by auto.
  destruct (kop_lt n k ts G T Cs E Hg) as (_ & _ & Hl). now apply op_apply_ext.
Qed.

Lemma gate_action_bitrev n k ts v w i : good_kind k ts -> good_targets n ts -> i < 2 ^ n ->
  (forall j, j < 2 ^ n -> v j = w (bitrev n j)) ->
  gate_action true n k ts v i = gate_action false n k ts w (bitrev n i).
Proof.
  intros Hk Hg Hi H. destruct (good_kop k ts Hk) as (G & T & Cs & E).
  rewrite !(kop_action K _ n k ts G T Cs) by auto.
  destruct (kop_lt n k ts G T Cs E Hg) as (Hl & _ & _). now apply op_apply_bitrev.
Qed.

Lemma swapM_unitary : unitary 4 (swapM K).
Proof.
  intros i j Hi Hj.
  assert (Hc : forall x, x < 4 -> x = 0 \/ x = 1 \/ x = 2 \/ x = 3) by lia.
  change (Nrange 4) with [0; 1; 2; 3].
  destruct (Hc i Hi) as [->|[->|[->| ->]]], (Hc j Hj) as [->|[->|[->| ->]]];
    unfold swapM; simpl; rewrite ?rconj_0, ?rconj_1; ring.
Qed.

Lemma x_unitary : unitary 2 (x_matrix K).
Proof.
  intros i j Hi Hj.
  assert (Hc : forall x, x < 2 -> x = 0 \/ x = 1) by lia.
  change (Nrange 2) with [0; 1].
  destruct (Hc i Hi) as [->| ->], (Hc j Hj) as [->| ->]; simpl; rewrite ?rconj_0, ?rconj_1; ring.
Qed.

Lemma kop_unitary k ts G T Cs : kop K k ts = Some (G, T, Cs) -> unitary_kind k ->
  unitary (2 ^ N.of_nat (length T)) G.
Proof.
  intros H Hu.
  destruct k as [mid bits| | | |nc dim m|nq m]; simpl in H, Hu;
    repeat match type of H with
           | match ?x with _ => _ end = _ => destruct x; try discriminate
           end; inversion H; subst; cbn [length].
  - exact swapM_unitary.
  - exact swapM_unitary.
  - exact x_unitary.
  - exact Hu.
  - exact Hu.
  - exact Hu.
Qed.

Lemma gate_action_inner le n k ts v w : good_kind k ts -> good_targets n ts -> unitary_kind k ->
  inner n (gate_action le n k ts v) (gate_action le n k ts w) = inner n v w.
Proof.
  intros Hk Hg Hu. destruct (good_kop k ts Hk) as (G & T & Cs & E).
  destruct (kop_lt n k ts G T Cs E Hg) as (Hl & Hnd & _).
  rewrite <- (op_apply_inner K le n T Cs Hl Hnd G v w) by (eapply kop_unitary; eauto).
  apply inner_ext; intros i _; now rewrite (kop_action K le n k ts G T Cs).
Qed.

(** ** Density matrices *)
Lemma kop_conj n k ts G T Cs : kop K k ts = Some (G, T, Cs) ->
  exists G', kop K (conj_kind K true k) (map (fun t => t + n) ts)
           = Some (G', map (fun t => t + n) T, map (fun t => t + n) Cs) /\
    forall s t, G' s t = rconj (G s t).
Proof.
  intros H.
  assert (Hsw : forall s t, swapM K s t = rconj (swapM K s t)).
  { intros s t. unfold swapM. destruct (swap_gate (K := K) s t) as [| |a] eqn:E; cbn [entry_val].
    - now rewrite rconj_0.
    - now rewrite rconj_1.
    - exfalso. unfold swap_gate in E. repeat match type of E with
        | match ?x with _ => _ end = _ => destruct x; try discriminate end. }
  assert (Hx : forall s t, x_matrix K s t = rconj (x_matrix K s t)).
  { intros s t. unfold x_matrix. destruct s as [|[| |]], t as [|[| |]]; now rewrite ?rconj_0, ?rconj_1. }
  destruct k as [mid bits| | | |nc dim m|nq m]; simpl in H;
    repeat match type of H with
           | match ?x with _ => _ end = _ => destruct x; try discriminate
           end; inversion H; subst; simpl; eexists; (split; [reflexivity|]); auto.
Qed.

Lemma gate_action_density n k ts (rho v : N -> K) (rho1 : N -> K) :
  good_kind k ts -> good_targets n ts ->
  (forall r c, r < 2 ^ n -> c < 2 ^ n -> rho (rowcol n r c) = rmul (v r) (rconj (v c))) ->
  (forall i, i < 2 ^ (2 * n) -> rho1 i = gate_action false (2 * n) k ts rho i) ->
  forall r c, r < 2 ^ n -> c < 2 ^ n ->
    gate_action false (2 * n) (conj_kind K true k) (map (fun t => t + n) ts) rho1 (rowcol n r c)
    = rmul (gate_action false n k ts v r) (rconj (gate_action false n k ts v c)).
Proof.
  intros Hk Hg Hrho Hr1 r c Hr Hc. destruct (good_kop k ts Hk) as (G & T & Cs & E).
  destruct (kop_lt n k ts G T Cs E Hg) as (Hl & Hnd & HlT).
  destruct (kop_conj n k ts G T Cs E) as (G' & E' & HG').
  destruct Hg as [Hn Hlt].
  assert (Hg2 : good_targets (2 * n) ts) by (split; [auto|intros t Ht; specialize (Hlt t Ht); lia]).
  assert (Hg3 : good_targets (2 * n) (map (fun t => t + n) ts)).
  { split.
    - apply FinFun.Injective_map_NoDup; [|auto]. intros a b Hab. lia.
    - intros t Ht. apply in_map_iff in Ht. destruct Ht as (x & <- & Hx). specialize (Hlt x Hx). lia. }
  rewrite (kop_action K false (2 * n) _ _ G' _ _ rho1 _ E' Hg3).
  rewrite (kop_action K false n k ts G T Cs v r E (conj Hn Hlt)), (kop_action K false n k ts G T Cs v c E (conj Hn Hlt)).
  rewrite <- (op_apply_density K n G T Cs rho v Hl Hrho r c Hr Hc).
  apply op_apply_ext.
  - intros q Hq. apply in_map_iff in Hq. destruct Hq as (x & <- & Hx). specialize (HlT x Hx). lia.
  - now apply rowcol_lt.
  - exact HG'.
  - intros j Hj. rewrite Hr1 by auto. now apply kop_action.
Qed.

(** ** Circuits *)
Lemma placed_wf c o : wf_op c o ->
  exists ts, target_indices K c o = Ok ts /\ placed c o ts /\ (forall t, In t ts -> t < num_qubits K c) /\
    (is_measure (so_kind K o) = false -> NoDup ts) /\
    (forall a, arity (so_kind K o) = Some a -> length ts = a).
Proof.
  intros Hw. destruct (target_indices_wf K c o Hw) as (ts & E & Hl & Hn & Ha & _).
  exists ts. repeat split; auto. unfold target_indices in E. destruct Hw as (qs & Hq & _).
  rewrite Hq in E. exists qs. split; [exact Hq|]. clear - E.
  revert ts E. induction qs as [|q qs IH]; intros ts E; simpl in E; [injection E as <-; constructor|].
  destruct (index_of q (sc_qubits K c)) as [i|] eqn:Ei; simpl in E; [|discriminate].
  destruct (mapM _ qs) as [ts'|] eqn:Em; simpl in E; [|discriminate]. injection E as <-.
  constructor; [|now apply IH]. rewrite Nat2N.id. clear - Ei. revert i Ei.
  induction (sc_qubits K c) as [|y l IHl]; intros i Ei; simpl in Ei; [discriminate|].
  destruct (Nat.eqb_spec q y) as [->|]; [injection Ei as <-; reflexivity|].
  destruct (index_of q l); [|discriminate]. simpl in Ei. injection Ei as <-. simpl. auto.
Qed.

Lemma run_pure_runs c le ops (m : mem) : num_qubits K c <= 30 ->
  (forall o, In o ops -> wf_op c o /\ is_measure (so_kind K o) = false) ->
  forall v, exists w, run_pure c le ops m v = (m, Ok w) /\ runs le c (m_bits K m) ops v w.
Proof.
  intros Hn. induction ops as [|o ops IH]; intros Hops v.
  - exists v. split; [reflexivity|]. constructor. auto.
  - destruct (Hops o (or_introl eq_refl)) as [Hw Hm].
    destruct (placed_wf c o Hw) as (ts & E & Hp & Hl & Hnd & Ha). simpl. rewrite E.
    destruct (is_blocked K m o) eqn:Eb.
    + unfold SimModel.apply_instruction. rewrite Eb.
      destruct (IH (fun x Hx => Hops x (or_intror Hx)) v) as (w & Er & Hr). exists w. split; [exact Er|].
      apply runs_skip; [now apply is_blocked_spec|exact Hr].
    + assert (Hs : supported (so_kind K o)) by (destruct Hw as (? & _ & _ & _ & _ & ?); assumption).
      destruct (apply_gate K U gtb is0 invsqrt rnd (num_qubits K c) le false o ts m v Hn Eb Hm Hs Ha)
        as (v' & Ev & Hv). { split; [now apply Hnd|exact Hl]. }
      rewrite Ev. destruct (IH (fun x Hx => Hops x (or_intror Hx)) v') as (w & Er & Hr). exists w.
      split; [exact Er|]. apply (runs_gate le c (m_bits K m) o ops ts v v' w).
      * rewrite <- is_blocked_spec, Eb. discriminate.
      * exact Hp.
      * intros i Hi. rewrite Hv by auto. destruct (so_kind K o); reflexivity.
      * exact Hr.
Qed.

Theorem simulate_runs c le (m : mem) : wf_circ c -> measurement_free c -> num_qubits K c <= 30 ->
  exists w, simulate c false le m = (m, Ok (SVec K w)) /\
    runs le c (m_bits K m) (sc_ops K c) (zero_state K) w.
Proof.
  intros (_ & Hne & Hw) Hm Hn. unfold SimModel.simulate. destruct (sc_qubits K c); [congruence|].
  destruct (run_pure_runs c le (sc_ops K c) m Hn (fun o Ho => conj (Hw o Ho) (Hm o Ho)) (zero_state K))
    as (w & E & H). exists w. rewrite E. split; [reflexivity|exact H].
Qed.

(** [runs] determines the result. *)
Lemma placed_unique c o ts ts' : NoDup (sc_qubits K c) -> placed c o ts -> placed c o ts' -> ts = ts'.
Proof.
  intros Hn (qs & E & F) (qs' & E' & F'). assert (qs = qs') by congruence. subst qs'. clear E E'.
  revert ts' F'. induction F as [|q t qs ts Ht F IH]; intros ts' F'; inversion F' as [|? t' ? ts'' Ht' F'']; subst.
  - reflexivity.
  - f_equal; [|auto]. apply N2Nat.inj. eapply (proj1 (NoDup_nth_error _) Hn).
    + apply nth_error_Some. congruence.
    + congruence.
Qed.

Lemma placed_good c o ts : wf_op c o -> NoDup (sc_qubits K c) -> placed c o ts ->
  is_measure (so_kind K o) = false ->
  good_targets (num_qubits K c) ts /\ good_kind (so_kind K o) ts.
Proof.
  intros Hw Hn Hp Hm. destruct (placed_wf c o Hw) as (ts' & _ & Hp' & Hl & Hnd & Ha).
  assert (ts = ts') by (eapply placed_unique; eauto). subst ts'.
  split; [split; auto|]. repeat split; auto. destruct Hw as (? & _ & _ & _ & _ & ?); assumption.
Qed.

Lemma runs_bitrev c bits ops : NoDup (sc_qubits K c) ->
  (forall o, In o ops -> wf_op c o /\ is_measure (so_kind K o) = false) ->
  forall v w v' w',
  runs true c bits ops v v' -> runs false c bits ops w w' ->
  (forall j, j < 2 ^ num_qubits K c -> v j = w (bitrev (num_qubits K c) j)) ->
  forall j, j < 2 ^ num_qubits K c -> v' j = w' (bitrev (num_qubits K c) j).
Proof.
  intros Hn. induction ops as [|o ops IH]; intros Hops v w v' w' H1 H2 Hv j Hj.
  - inversion H1 as [? ? A1| |]; inversion H2 as [? ? A2| |]; subst.
    rewrite A1 by auto. rewrite A2 by apply bitrev_lt. now apply Hv.
  - assert (Hops' : forall x, In x ops -> wf_op c x /\ is_measure (so_kind K x) = false)
      by (intros x Hx; apply Hops; now right).
    destruct (Hops o (or_introl eq_refl)) as [Hw Hm].
    inversion H1 as [| o1 ops1 a1 b1 Z1 R1 | o1 ops1 ts1 a1 c1 b1 Z1 P1 G1 R1]; subst;
    inversion H2 as [| o2 ops2 a2 b2 Z2 R2 | o2 ops2 ts2 a2 c2 b2 Z2 P2 G2 R2]; subst; try contradiction.
    + eapply IH; eauto.
    + assert (ts1 = ts2) by (eapply placed_unique; eauto). subst ts2.
      destruct (placed_good c o ts1 Hw Hn P1 Hm) as [Hg Hk].
      eapply (IH Hops' c1 c2); eauto. intros k Hkk. rewrite G1 by auto. rewrite G2 by apply bitrev_lt.
      now apply gate_action_bitrev.
Qed.

Theorem simulate_endian c (m : mem) v w : wf_circ c -> measurement_free c -> num_qubits K c <= 30 ->
  simulate c false true m = (m, Ok (SVec K v)) -> simulate c false false m = (m, Ok (SVec K w)) ->
  forall i, i < 2 ^ num_qubits K c -> v i = w (bitrev (num_qubits K c) i).
Proof.
  intros Hw Hm Hn E1 E2 i Hi.
  destruct (simulate_runs c true m Hw Hm Hn) as (v1 & E1' & R1).
  destruct (simulate_runs c false m Hw Hm Hn) as (v2 & E2' & R2).
  assert (v = v1) by congruence. assert (w = v2) by congruence. subst v1 v2.
  destruct Hw as (Hnd & _ & Hops).
  eapply (runs_bitrev c (m_bits K m) (sc_ops K c) Hnd); eauto.
  intros j Hj. unfold zero_state. destruct (N.eqb_spec j 0) as [->|Hj0].
  - now rewrite bitrev_0.
  - destruct (N.eqb_spec (bitrev (num_qubits K c) j) 0) as [E|]; [|reflexivity].
    exfalso. apply Hj0. rewrite <- (bitrev_invol _ j Hj), E. apply bitrev_0.
Qed.

Lemma runs_inner le c bits ops : NoDup (sc_qubits K c) ->
  (forall o, In o ops -> wf_op c o /\ is_measure (so_kind K o) = false /\ unitary_kind (so_kind K o)) ->
  forall v w v' w', runs le c bits ops v v' -> runs le c bits ops w w' ->
  inner (num_qubits K c) v' w' = inner (num_qubits K c) v w.
Proof.
  intros Hn. induction ops as [|o ops IH]; intros Hops v w v' w' H1 H2.
  - inversion H1; inversion H2; subst. now apply inner_ext.
  - assert (Hops' : forall x, In x ops -> wf_op c x /\ is_measure (so_kind K x) = false /\ unitary_kind (so_kind K x))
      by (intros x Hx; apply Hops; now right).
    destruct (Hops o (or_introl eq_refl)) as (Hw & Hm & Hu).
    inversion H1 as [| o1 ops1 a1 b1 Z1 R1 | o1 ops1 ts1 a1 c1 b1 Z1 P1 G1 R1]; subst;
    inversion H2 as [| o2 ops2 a2 b2 Z2 R2 | o2 ops2 ts2 a2 c2 b2 Z2 P2 G2 R2]; subst; try contradiction.
    + eapply IH; eauto.
    + assert (ts1 = ts2) by (eapply placed_unique; eauto). subst ts2.
      destruct (placed_good c o ts1 Hw Hn P1 Hm) as [Hg Hk].
      rewrite (IH Hops' c1 c2 v' w' R1 R2).
      rewrite (inner_ext K _ c1 _ c2 _ G1 G2). now apply gate_action_inner.
Qed.

(** ** Mixed-state simulation *)
Lemma run_mixed_density c ops (m : mem) : 2 * num_qubits K c <= 30 -> NoDup (sc_qubits K c) ->
  (forall o, In o ops -> wf_op c o /\ is_measure (so_kind K o) = false) ->
  forall rho v w, runs false c (m_bits K m) ops v w ->
  (forall r s, r < 2 ^ num_qubits K c -> s < 2 ^ num_qubits K c ->
     rho (rowcol (num_qubits K c) r s) = rmul (v r) (rconj (v s))) ->
  exists rho', run_mixed c ops m rho = (m, Ok rho') /\
    forall r s, r < 2 ^ num_qubits K c -> s < 2 ^ num_qubits K c ->
      rho' (rowcol (num_qubits K c) r s) = rmul (w r) (rconj (w s)).
Proof.
  set (n := num_qubits K c). intros Hn Hnd. induction ops as [|o ops IH]; intros Hops rho v w Hr Hrho.
  - exists rho. split; [reflexivity|]. inversion Hr as [? ? Hvw| |]; subst. intros r s Hr1 Hs.
    rewrite Hrho by auto. now rewrite !Hvw.
  - assert (Hops' : forall x, In x ops -> wf_op c x /\ is_measure (so_kind K x) = false)
      by (intros x Hx; apply Hops; now right).
    destruct (Hops o (or_introl eq_refl)) as [Hw Hm].
    destruct (placed_wf c o Hw) as (ts & E & Hp & Hl & Hnd' & Ha).
    assert (Estep : run_mixed c (o :: ops) m rho =
       match apply_instruction (2 * n) false false o ts m rho with
              | (m1, Err e) => (m1, Err e)
              | (m1, Ok v1) =>
                  match apply_instruction (2 * n) false true o (map (fun t => t + n)%N ts) m1 v1 with
                  | (m2, Ok v2) => run_mixed c ops m2 v2
                  | (m2, Err e) => (m2, Err e)
                  end
              end).
    { simpl. rewrite E. destruct (so_kind K o); try reflexivity. discriminate. }
    rewrite Estep. clear Estep.
    destruct (is_blocked K m o) eqn:Eb.
    + unfold SimModel.apply_instruction at 1 2. rewrite Eb.
      inversion Hr as [| o1 ops1 a1 b1 Z1 R1 | o1 ops1 ts1 a1 c1 b1 Z1 P1 G1 R1]; subst.
      * unfold SimModel.apply_instruction. rewrite Eb. eapply IH; eauto.
      * exfalso. apply Z1. now apply is_blocked_spec.
    + inversion Hr as [| o1 ops1 a1 b1 Z1 R1 | o1 ops1 ts1 a1 v1 b1 Z1 P1 G1 R1]; subst.
      { exfalso. apply is_blocked_spec in Z1. congruence. }
      assert (ts1 = ts) by (eapply placed_unique; eauto). subst ts1.
      destruct (placed_good c o ts Hw Hnd Hp Hm) as [Hg Hk]. fold n in Hg.
      destruct Hg as [Hgn Hgl]. destruct Hk as (_ & Hs & _).
      assert (Hg2 : good_targets (2 * n) ts) by (split; [auto|intros t Ht; specialize (Hgl t Ht); lia]).
      assert (Hg3 : good_targets (2 * n) (map (fun t => t + n) ts)).
      { split.
        - apply FinFun.Injective_map_NoDup; [|auto]. intros a b Hab. lia.
        - intros t Ht. apply in_map_iff in Ht. destruct Ht as (x & <- & Hx). specialize (Hgl x Hx). lia. }
      destruct (apply_gate K U gtb is0 invsqrt rnd (2 * n) false false o ts m rho Hn Eb Hm Hs Ha Hg2)
        as (rho1 & E1 & H1). rewrite E1.
      destruct (apply_gate K U gtb is0 invsqrt rnd (2 * n) false true o (map (fun t => t + n) ts) m rho1 Hn Eb Hm Hs)
        as (rho2 & E2 & H2); [intros a Hka; rewrite map_length; now apply Ha|exact Hg3|]. rewrite E2.
      apply (IH Hops' rho2 v1 w R1). intros r s Hr1 Hs1. rewrite H2 by now apply rowcol_lt.
      rewrite !G1 by auto.
      apply (gate_action_density n (so_kind K o) ts rho v rho1);
        [repeat split; auto|split; auto|exact Hrho| |exact Hr1|exact Hs1].
      intros i Hi. rewrite H1 by auto. destruct (so_kind K o); reflexivity.
Qed.

Theorem simulate_mixed c (m : mem) : wf_circ c -> measurement_free c -> 2 * num_qubits K c <= 30 ->
  exists rho v, simulate c true false m = (m, Ok (SMat K rho)) /\ simulate c false false m = (m, Ok (SVec K v)) /\
    forall r s, r < 2 ^ num_qubits K c -> s < 2 ^ num_qubits K c ->
      rho (rowcol (num_qubits K c) r s) = rmul (v r) (rconj (v s)).
Proof.
  intros Hwf Hm Hn.
  destruct (simulate_runs c false m Hwf Hm) as (v & Ev & Rv); [lia|].
  destruct Hwf as (Hnd & Hne & Hw).
  destruct (run_mixed_density c (sc_ops K c) m Hn Hnd (fun o Ho => conj (Hw o Ho) (Hm o Ho))
              (zero_state K) (zero_state K) v Rv) as (rho & Er & Hr).
  { intros r s Hr Hs. unfold zero_state, rowcol.
    destruct (N.eqb_spec r 0) as [->|Hr0], (N.eqb_spec s 0) as [->|Hs0].
    - cbn. rewrite rconj_1. ring.
    - destruct (N.eqb_spec (0 * 2 ^ num_qubits K c + s) 0); [lia|]. rewrite rconj_0. ring.
    - assert (2 ^ num_qubits K c <> 0) by (apply N.pow_nonzero; lia).
      destruct (N.eqb_spec (r * 2 ^ num_qubits K c + 0) 0); [nia|]. ring.
    - destruct (N.eqb_spec (r * 2 ^ num_qubits K c + s) 0); [lia|]. ring. }
  exists rho, v. split; [|split; [exact Ev|exact Hr]].
  unfold SimModel.simulate. destruct (sc_qubits K c); [congruence|]. now rewrite Er.
Qed.
End S.

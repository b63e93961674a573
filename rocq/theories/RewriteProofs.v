(** A rewritten circuit shows the same outcomes and the same state up to a phase. *)
From Coq Require Import List NArith Arith Bool Lia Reals Lra.
From Verif Require Import Py CRing Cplx KernelModel KernelSpec KernelProofs2 SimModel SimSpec SimReal SimProofs SimProofs2 SimProofs3 SimProofs4 MeasureSpec SimProofs7
  UnitarySpec CallSpec CallProofs CallProofs2 CallProofs3 SampleModel SampleSpec SampleProofs SampleProofs2 BranchSpec BranchProofs BranchProofs2 GateModel RewriteSpec.
Import ListNotations.
Local Open Scope R_scope.

(** ** Phases *)
Lemma Cnorm2_mul a b : Cnorm2 (Cmul a b) = Cnorm2 a * Cnorm2 b.
Proof. unfold Cnorm2, Cmul, Re, Im. cbn. ring. Qed.
Lemma Cmul_assoc a b c : Cmul a (Cmul b c) = Cmul (Cmul a b) c.
Proof. ceq; ring. Qed.
Lemma phased_prob n z v w t o : phased n z v w -> prob false n t o w = prob false n t o v.
Proof.
  intros (Hz & H). apply Rsum_ext. intros i Hi. apply filter_In in Hi. destruct Hi as [Hi _]. apply in_Nrange in Hi.
  rewrite (H i Hi), Cnorm2_mul, Hz. ring.
Qed.
Lemma phased_trans n z z' u v w : phased n z u v -> phased n z' v w -> phased n (Cmul z' z) u w.
Proof.
  intros (Hz & H) (Hz' & H'). split; [rewrite Cnorm2_mul, Hz, Hz'; ring|]. intros i Hi. rewrite (H' i Hi), (H i Hi). apply Cmul_assoc.
Qed.
Lemma phased_refl n v : phased n C1 v v.
Proof. split; [unfold Cnorm2, C1, Re, Im; cbn; ring|]. intros i _. ceq; ring. Qed.

Lemma bool_of (o o' : bool) (Q : Prop) : (o = false <-> Q) -> (o' = false <-> Q) -> o' = o.
Proof. intros H H'. destruct o, o'; try reflexivity; exfalso; [assert (true = false) by (apply H, H'; reflexivity)|assert (true = false) by (apply H', H; reflexivity)]; discriminate. Qed.

Lemma phased_collapses n ts us os v w : collapses n ts us os v w -> forall z v' os' w', phased n z v v' ->
  collapses n ts us os' v' w' -> os' = os /\ phased n z w w'.
Proof.
  induction 1 as [v w Hw|t ts u us o os v v1 w Ho Hp Hv1 H IH]; intros z v' os' w' Hz H'.
  - inversion H' as [? ? Hw'|]; subst. split; [reflexivity|]. destruct Hz as (Hz & Hv). split; [exact Hz|].
    intros i Hi. now rewrite Hw', Hw, Hv.
  - inversion H' as [|? ? ? ? o2 os2 ? v2 ? Ho2 Hp2 Hv2 H2]; subst. rewrite (phased_prob n z v v' t false Hz) in Ho2.
    assert (o2 = o) by (eapply bool_of; eauto). subst o2. rewrite (phased_prob n z v v' t o Hz) in Hv2.
    destruct (IH z v2 os2 w') as (-> & Hf); [|exact H2|split; [reflexivity|exact Hf]].
    destruct Hz as (Hz & Hv). split; [exact Hz|]. intros i Hi. rewrite (Hv2 i Hi), (Hv1 i Hi). destruct (Bool.eqb _ o); [rewrite (Hv i Hi); ceq; ring|ceq; ring].
Qed.

Lemma some_zero_ext (f g : nat -> option bool) l : (forall b, g b = f b) -> some_zero f l -> some_zero g l.
Proof. intros H (b & Hb & E). exists b. split; [exact Hb|]. now rewrite H. Qed.
Lemma zero_dec (f : nat -> option bool) l : some_zero f l \/ ~ some_zero f l.
Proof.
  induction l as [|b l [IH|IH]]; [right; intros (b & [] & _)|left; destruct IH as (a & H & E); exists a; split; [now right|exact E]|].
  destruct (f b) as [[]|] eqn:E; [right|left; exists b; split; [now left|exact E]|right]; intros (a & [->|H] & E'); try congruence; apply IH; exists a; auto.
Qed.

(** ** Parts *)
Section Parts.
Variables c d : scirc Ccring.
Hypothesis Hc : NoDup (sc_qubits Ccring c).
Hypothesis Hd : NoDup (sc_qubits Ccring d).
Hypothesis Hcne : sc_qubits Ccring c <> [].
Hypothesis Hdne : sc_qubits Ccring d <> [].
Notation n := (num_qubits Ccring c).
Hypothesis Hcd : num_qubits Ccring d = n.
Hypothesis Hn : (n <= 30)%N.

Definition fine (e : scirc Ccring) (ops : list (sop Ccring)) : Prop := forall o, In o ops -> wf_op e o /\ is_measure (so_kind Ccring o) = false.

Lemma wf_uncond e o : wf_op e o -> wf_op (part e []) (uncond o).
Proof. intros (qs & H). exists qs. exact H. Qed.
Lemma part_fine e ops : NoDup (sc_qubits Ccring e) -> sc_qubits Ccring e <> [] -> fine e ops -> wf_circ (part e ops) /\ measurement_free (part e ops) /\ unconditional (part e ops).
Proof.
  intros H1 H2 Hf. split; [|split].
  - split; [exact H1|]. split; [exact H2|]. intros o Ho. cbn in Ho. apply in_map_iff in Ho. destruct Ho as (x & <- & Hx). destruct (Hf x Hx) as ((qs & H) & _). exists qs. exact H.
  - intros o Ho. cbn in Ho. apply in_map_iff in Ho. destruct Ho as (x & <- & Hx). apply (Hf x Hx).
  - intros o Ho. cbn in Ho. apply in_map_iff in Ho. destruct Ho as (x & <- & Hx). reflexivity.
Qed.
Lemma part_runs e ops bits cond : (forall o, In o ops -> so_cond Ccring o = cond) -> ~ some_zero bits cond -> forall v w,
  @runs Ccring false e bits ops v w -> @runs Ccring false (part e ops) (fun _ => None) (map uncond ops) v w.
Proof.
  intros Ho Hz. assert (G : forall l v w, (forall o, In o l -> so_cond Ccring o = cond) -> @runs Ccring false e bits l v w ->
    @runs Ccring false (part e ops) (fun _ => None) (map uncond l) v w); [|intros v w; now apply G].
  induction l as [|o l IH]; intros v w Hl H.
  - inversion H; subst. now constructor.
  - inversion H as [|? ? ? ? Hs|? ? ts ? v' ? Hs Hp Hv Hr]; subst; [exfalso; apply Hz; now rewrite <- (Hl o (or_introl eq_refl))|].
    cbn [map]. eapply runs_gate with (ts := ts) (v' := v'); [apply not_zero; reflexivity|exact Hp|exact Hv|].
    apply IH; [intros; apply Hl; now right|exact Hr].
Qed.

Lemma mat_vec_scaled k (M L : N -> N -> C) z (v w : N -> C) i : (i < 2 ^ k)%N ->
  (forall r s, (r < 2 ^ k)%N -> (s < 2 ^ k)%N -> L r s = Cmul z (M r s)) -> forall z', (forall j, (j < 2 ^ k)%N -> w j = Cmul z' (v j)) ->
  @mat_vec Ccring k L w i = Cmul (Cmul z z') (@mat_vec Ccring k M v i).
Proof.
  intros Hi HL z' Hw. unfold mat_vec. etransitivity; [|exact (sumf_scale Ccring (Nrange (2 ^ k)) (fun j => Cmul (M i j) (v j)) (Cmul z z'))].
  apply sumf_ext. intros j Hj. apply in_Nrange in Hj. rewrite (HL i j Hi Hj), (Hw j Hj). cbn. ceq; ring.
Qed.

Lemma effect_phased A B bits v v' w w' cond z : fine c A -> fine d B -> (forall o, In o (A ++ B) -> so_cond Ccring o = cond) -> ~ some_zero bits cond ->
  same_effect c A d B -> phased n z v v' -> @runs Ccring false c bits A v w -> @runs Ccring false d bits B v' w' -> exists z', phased n z' w w'.
Proof.
  intros HA HB Ho Hz (M & L & z0 & HM & HL & Hz0 & HLM) (Hz1 & Hv) H1 H2.
  destruct (part_fine c A Hc Hcne HA) as (A1 & A2 & A3). destruct (part_fine d B Hd Hdne HB) as (B1 & B2 & B3).
  apply (part_runs c A bits cond) in H1; [|intros; apply Ho, in_or_app; now left|exact Hz].
  apply (part_runs d B bits cond) in H2; [|intros; apply Ho, in_or_app; now right|exact Hz].
  exists (Cmul z0 z). split; [rewrite Cnorm2_mul, Hz0, Hz1; ring|]. intros i Hi.
  pose proof (operator_runs Ccring false (part c A) A1 A2 A3 M v w (fun _ => None) HM H1 i Hi) as E1.
  assert (Hi' : (i < 2 ^ num_qubits Ccring (part d B))%N) by (change (num_qubits Ccring (part d B)) with (num_qubits Ccring d); now rewrite Hcd).
  pose proof (operator_runs Ccring false (part d B) B1 B2 B3 L v' w' (fun _ => None) HL H2 i Hi') as E2.
  rewrite E1, E2. change (num_qubits Ccring (part d B)) with (num_qubits Ccring d). rewrite Hcd. change (num_qubits Ccring (part c A)) with n.
  apply mat_vec_scaled; auto.
Qed.

Lemma alike_measure k k' : alike k k' -> is_measure k' = is_measure k.
Proof. destruct k, k'; cbn; intros H; try contradiction; try discriminate; reflexivity. Qed.
Lemma alike_gate k k' : alike k k' -> is_measure k = false -> k' = k.
Proof. destruct k, k'; cbn; intros H H'; try contradiction; try discriminate; auto. Qed.

Lemma blocked_run rnd e cond : forall A l (m : mem Ccring) v, (forall o, In o A -> wf_op e o /\ so_cond Ccring o = cond) -> some_zero (m_bits Ccring m) cond ->
  run_pure_C rnd e false (A ++ l) m v = run_pure_C rnd e false l m v.
Proof.
  induction A as [|o A IH]; intros l m v Ho Hz; [reflexivity|]. cbn [app]. destruct (Ho o (or_introl eq_refl)) as (Hw & E).
  unfold run_pure_C. cbn [run_pure]. destruct (placed_wf Ccring e o Hw) as (ts & Et & _). rewrite Et.
  rewrite <- E in Hz. rewrite apply_blocked by exact Hz. rewrite E in Hz. apply IH; [intros; apply Ho; now right|exact Hz].
Qed.

Section Run.
Variable rnd : nat -> R.
Hypothesis Hrnd : forall k, uniform (rnd k).

Lemma phased_norm z v w : phased n z v w -> normalised n v -> normalised n w.
Proof.
  intros (Hz & H) Hv. unfold normalised in *. rewrite <- Hv. apply Rsum_ext. intros i Hi. apply in_Nrange in Hi. rewrite (H i Hi), Cnorm2_mul, Hz. ring.
Qed.

Lemma gate_norm o ts v w : wf_op c o -> is_measure (so_kind Ccring o) = false -> unitary_kind (so_kind Ccring o) -> placed c o ts ->
  (forall i, (i < 2 ^ n)%N -> w i = @gate_action Ccring false n (so_kind Ccring o) ts v i) -> normalised n v -> normalised n w.
Proof.
  intros Hw Hm Hu Hp H Hv. destruct (placed_good Ccring c o ts Hw Hc Hp Hm) as (Hg & Hk).
  unfold normalised in *. rewrite <- Hv. exact (gate_weight n (so_kind Ccring o) ts v w Hk Hg Hu H).
Qed.
Lemma runs_norm bits ops v w : (forall o, In o ops -> wf_op c o /\ is_measure (so_kind Ccring o) = false /\ unitary_kind (so_kind Ccring o)) ->
  @runs Ccring false c bits ops v w -> normalised n v -> normalised n w.
Proof.
  intros Ho H. revert Ho. induction H as [v w Hw|o ops v w Hz H IH|o ops ts v v' w Hz Hp Hv H IH]; intros Ho Hnv.
  - unfold normalised in *. rewrite <- Hnv. apply Rsum_ext. intros i Hi. apply in_Nrange in Hi. now rewrite Hw.
  - apply IH; [intros; apply Ho; now right|exact Hnv].
  - destruct (Ho o (or_introl eq_refl)) as (A1 & A2 & A3). apply IH; [intros; apply Ho; now right|]. eapply gate_norm; eauto.
Qed.

Theorem rewritten_run l l' : rewritten c d l l' ->
  (forall o, In o l -> wf_op c o /\ unitary_kind (so_kind Ccring o)) -> (forall o, In o l' -> wf_op d o /\ unitary_kind (so_kind Ccring o)) ->
  forall (m m' : mem Ccring) v v' z, normalised n v -> phased n z v v' -> (forall b, m_bits Ccring m' b = m_bits Ccring m b) -> m_pos Ccring m' = m_pos Ccring m ->
  exists m1 a m2 b z', run_pure_C rnd c false l m v = (m1, Ok a) /\ run_pure_C rnd d false l' m' v' = (m2, Ok b) /\
    phased n z' a b /\ (forall b, m_bits Ccring m2 b = m_bits Ccring m1 b) /\ m_pos Ccring m2 = m_pos Ccring m1.
Proof.
  assert (Hn' : (num_qubits Ccring d <= 30)%N) by (rewrite Hcd; exact Hn).
  induction 1 as [|o p l l' (Hk & Hco & ts & Hp & Hq) H IH|cond A B l l' Hab He H IH]; intros H1 H2 m m' v v' z Hv Hz Hb Hpos.
  - exists m, v, m', v', z. split; [reflexivity|]. split; [reflexivity|]. auto.
  - destruct (H1 o (or_introl eq_refl)) as (W1 & U1). destruct (H2 p (or_introl eq_refl)) as (W2 & U2).
    specialize (IH (fun x Hx => H1 x (or_intror Hx)) (fun x Hx => H2 x (or_intror Hx))).
    destruct (zero_dec (m_bits Ccring m) (so_cond Ccring o)) as [Z|Z].
    + change (o :: l) with ([o] ++ l). change (p :: l') with ([p] ++ l').
      rewrite (blocked_run rnd c (so_cond Ccring o) [o] l m v); [|intros x [<-|[]]; auto|exact Z].
      rewrite (blocked_run rnd d (so_cond Ccring p) [p] l' m' v'); [|intros x [<-|[]]; auto|rewrite Hco; eapply some_zero_ext; [exact Hb|exact Z]].
      eapply IH; eauto.
    + assert (Z' : ~ some_zero (m_bits Ccring m') (so_cond Ccring p)) by (rewrite Hco; intros Y; apply Z; eapply some_zero_ext; [|exact Y]; intros; symmetry; apply Hb).
      destruct (is_measure (so_kind Ccring o)) eqn:Em.
      * destruct (so_kind Ccring o) as [mid st| | | | |] eqn:Eo; try discriminate Em.
        destruct (so_kind Ccring p) as [mid' st'| | | | |] eqn:Ep; cbn in Hk; try contradiction. subst st'.
        destruct (measure_step rnd Hrnd c o mid st l m v ts W1 Hc Hn Eo Hp Z Hv) as (m1 & w1 & os1 & E1 & C1 & N1 & _ & B1 & P1).
        assert (Hv' : normalised (num_qubits Ccring d) v') by (rewrite Hcd; now apply (phased_norm z v)).
        destruct (measure_step rnd Hrnd d p mid' st l' m' v' ts W2 Hd Hn' Ep Hq Z' Hv') as (m2 & w2 & os2 & E2 & C2 & N2 & _ & B2 & P2).
        rewrite E1, E2. rewrite Hcd, Hpos in C2. destruct (phased_collapses n ts _ os1 v w1 C1 z v' os2 w2 Hz C2) as (-> & Hw).
        apply (IH m1 m2 w1 w2 z N1 Hw); [|now rewrite P1, P2, Hpos].
        intros b. rewrite B1, B2. apply recorded_ext, Hb.
      * assert (Em' : is_measure (so_kind Ccring p) = false) by now rewrite (alike_measure _ _ Hk).
        destruct (gate_step rnd c o l m v ts W1 Hc Hn Em Hp Z) as (w1 & E1 & G1).
        destruct (gate_step rnd d p l' m' v' ts W2 Hd Hn' Em' Hq Z') as (w2 & E2 & G2).
        rewrite E1, E2. apply (IH m m' w1 w2 z); auto; [eapply gate_norm; eauto|].
        split; [apply Hz|]. intros i Hi. rewrite Hcd in G2. rewrite (G2 i Hi), (G1 i Hi), (alike_gate _ _ Hk Em).
        destruct (placed_good Ccring c o ts W1 Hc Hp Em) as (Hg & Hkk).
        rewrite (gate_action_ext Ccring false n (so_kind Ccring o) ts v' (fun j => Cmul z (v j)) i Hkk Hg Hi (proj2 Hz)). now apply gate_scale.
  - assert (FA : fine c A) by (intros o Ho; split; [apply H1, in_or_app; now left|apply Hab, in_or_app; now left]).
    assert (FB : fine d B) by (intros o Ho; split; [apply H2, in_or_app; now left|apply Hab, in_or_app; now right]).
    specialize (IH (fun x Hx => H1 x (in_or_app _ _ _ (or_intror Hx))) (fun x Hx => H2 x (in_or_app _ _ _ (or_intror Hx)))).
    destruct (zero_dec (m_bits Ccring m) cond) as [Z|Z].
    + rewrite (blocked_run rnd c cond A l m v); [|intros x Hx; split; [apply FA, Hx|apply Hab, in_or_app; now left]|exact Z].
      rewrite (blocked_run rnd d cond B l' m' v'); [|intros x Hx; split; [apply FB, Hx|apply Hab, in_or_app; now right]|eapply some_zero_ext; [exact Hb|exact Z]].
      eapply IH; eauto.
    + destruct (run_pure_runs Ccring R Cgtb Cis0 Cinvsqrt rnd c false A m Hn FA v) as (w & E1 & R1).
      destruct (run_pure_runs Ccring R Cgtb Cis0 Cinvsqrt rnd d false B m' Hn' FB v') as (w' & E2 & R2).
      assert (R2' : @runs Ccring false d (m_bits Ccring m) B v' w').
      { clear -R2 Hb. induction R2 as [v w Hw|o ops v w Hz H IH|o ops ts v v' w Hz Hp Hv H IH].
        - now constructor.
        - apply runs_skip; [eapply some_zero_ext; [|exact Hz]; intros; symmetry; apply Hb|exact IH].
        - eapply runs_gate; eauto. intros Y. apply Hz. eapply some_zero_ext; [exact Hb|exact Y]. }
      destruct (effect_phased A B (m_bits Ccring m) v v' w w' cond z FA FB (fun o Ho => proj1 (Hab o Ho)) Z He Hz R1 R2') as (z' & Hz').
      unfold run_pure_C. rewrite !run_pure_app, E1, E2. apply (IH m m' w w' z'); auto.
      apply (runs_norm (m_bits Ccring m) A v w); [|exact R1|exact Hv]. intros o Ho. destruct (FA o Ho). split; [auto|]. split; [auto|]. apply H1, in_or_app. now left.
Qed.
End Run.
End Parts.

Theorem rewritten_simulate c d : wf_circ c -> wf_circ d -> unitary_circ c -> unitary_circ d -> num_qubits Ccring d = num_qubits Ccring c ->
  (num_qubits Ccring c <= 30)%N -> rewritten c d (sc_ops Ccring c) (sc_ops Ccring d) ->
  forall rnd (m m' : mem Ccring), (forall k, uniform (rnd k)) -> (forall b, m_bits Ccring m' b = m_bits Ccring m b) -> m_pos Ccring m' = m_pos Ccring m ->
  exists m1 a m2 a' z, simulate_C rnd c false false m = (m1, Ok (SVec Ccring a)) /\ simulate_C rnd d false false m' = (m2, Ok (SVec Ccring a')) /\
    (forall b, m_bits Ccring m2 b = m_bits Ccring m1 b) /\ m_pos Ccring m2 = m_pos Ccring m1 /\ phased (num_qubits Ccring c) z a a'.
Proof.
  intros (A1 & A2 & A3) (B1 & B2 & B3) Uc Ud Hcd Hn H rnd m m' Hr Hb Hp.
  destruct (rewritten_run c d A1 B1 A2 B2 Hcd Hn rnd Hr _ _ H (fun o Ho => conj (A3 o Ho) (Uc o Ho)) (fun o Ho => conj (B3 o Ho) (Ud o Ho))
    m m' (zero_state Ccring) (zero_state Ccring) C1 (zero_normalised _) (phased_refl _ _) Hb Hp) as (m1 & a & m2 & a' & z & E1 & E2 & E3 & E4 & E5).
  exists m1, a, m2, a', z. unfold run_pure_C in *. unfold simulate_C, simulate. destruct (sc_qubits Ccring c) eqn:Q1; [congruence|]. destruct (sc_qubits Ccring d) eqn:Q2; [congruence|].
  rewrite E1, E2. auto.
Qed.

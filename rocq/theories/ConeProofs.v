(** Dropped operations: probabilities of bits. *)
From Coq Require Import List NArith Arith Bool Lia Reals Lra Permutation.
From Verif Require Import Py CRing Cplx KernelModel KernelSpec SimModel SimSpec SimReal SimProofs SimProofs2 SimProofs3 MeasureSpec UnitarySpec SampleSpec SampleProofs SampleProofs2 BranchSpec BranchProofs BranchProofs2
  RewriteSpec RewriteProofs RewriteProofs4 OrderSpec OrderProofs OrderProofs2 OrderProofs3 OrderProofs4 ConeSpec.
Import ListNotations.
Local Open Scope R_scope.

(** ** Dropped operations move to the end *)
Lemma reordered_end both o k d : (forall p, In p k -> independent o p /\ (is_measure (so_kind Ccring o) = true -> is_measure (so_kind Ccring p) = true -> both = true)) ->
  reordered both (o :: k ++ d) (k ++ o :: d).
Proof.
  induction k as [|p k IH]; intros H; cbn [app]; [apply reordered_refl|]. destruct (H p (or_introl eq_refl)) as (H1 & H2).
  apply re_trans with (p :: o :: k ++ d); [now apply re_swap|]. apply re_cons, IH. intros x Hx. apply H. now right.
Qed.
Lemma pruned_reordered both l k d : pruned l k d -> (both = false -> forall o, In o d -> is_measure (so_kind Ccring o) = false) -> reordered both l (k ++ d).
Proof.
  induction 1 as [|o l k d H IH|o l k d Hi H IH]; intros Hb.
  - constructor.
  - cbn [app]. apply re_cons. now apply IH.
  - apply re_trans with (o :: k ++ d); [apply re_cons, IH; intros E x Hx; apply Hb; cbn; auto|]. apply reordered_end. intros p Hp. split; [auto|].
    intros Mo _. destruct both; [reflexivity|]. rewrite (Hb eq_refl o (or_introl eq_refl)) in Mo. discriminate Mo.
Qed.
Lemma pruned_in l k d : pruned l k d -> forall o, In o l <-> In o k \/ In o d.
Proof. induction 1 as [|o l k d H IH|o l k d Hi H IH]; intros x; cbn; [tauto| |]; rewrite IH; tauto. Qed.

Lemma Rsum_perm {I} (l m : list I) f : Permutation l m -> Rsum l f = Rsum m f.
Proof. induction 1; unfold Rsum in *; cbn in *; lra. Qed.

Section Chance.
Variable c : scirc Ccring.
Hypothesis Hc : NoDup (sc_qubits Ccring c).
Notation n := (num_qubits Ccring c).
Notation br := (branch c).
Notation fits := (fun l => forall o, In o l -> wf_op c o /\ unitary_kind (so_kind Ccring o)).
Variable T : (nat -> option bool) -> bool.
Hypothesis HT : forall f g, (forall b, f b = g b) -> T f = T g.

Lemma chance_fun l bits v p q : fits l -> chance c l bits v T p -> chance c l bits v T q -> p = q.
Proof.
  intros Fl (L & L1 & L2 & L3 & ->) (M & M1 & M2 & M3 & ->). apply Rsum_perm. apply NoDup_Permutation; [now apply NoDup_map_inv in L1|now apply NoDup_map_inv in M1|].
  assert (X : forall (A B : list (list bool * R)), (forall h, In h (map fst A) <-> exists bits' w, br l h bits v bits' w /\ T bits' = true) ->
    (forall h q, In (h, q) A -> forall bits' w, br l h bits v bits' w -> weight n w = q) ->
    (forall h, In h (map fst B) <-> exists bits' w, br l h bits v bits' w /\ T bits' = true) ->
    (forall h q, In (h, q) B -> forall bits' w, br l h bits v bits' w -> weight n w = q) -> forall x, In x A -> In x B).
  { intros A B A2 A3 B2 B3 (h & x) Hx. assert (Hh : In h (map fst A)) by (apply in_map_iff; exists (h, x); auto).
    pose proof (proj1 (A2 h) Hh) as (b' & w & Hb & Ht). assert (Hh' : In h (map fst B)) by (apply B2; eauto).
    apply in_map_iff in Hh'. destruct Hh' as ((h' & y) & E & Hy). cbn in E. subst h'. rewrite <- (A3 h x Hx b' w Hb), (B3 h y Hy b' w Hb). exact Hy. }
  intros x. split; apply X; auto.
Qed.

Lemma chance_blocked o l bits v p : some_zero bits (so_cond Ccring o) -> chance c l bits v T p -> chance c (o :: l) bits v T p.
Proof.
  intros Z (L & L1 & L2 & L3 & ->). exists L. split; [exact L1|]. split; [|split; [|reflexivity]].
  - intros h. rewrite L2. split; intros (b' & w & H & Ht); exists b', w; (split; [|exact Ht]); [now apply branch_blocked|now apply blocked_branch in H].
  - intros h q Hq b' w H. apply (L3 h q Hq b' w). now apply blocked_branch in H.
Qed.
Lemma chance_gate o l ts bits v p : wf_op c o -> (forall x, In x l -> wf_op c x) -> ~ some_zero bits (so_cond Ccring o) -> is_measure (so_kind Ccring o) = false -> placed c o ts ->
  chance c l bits (@gate_action Ccring false n (so_kind Ccring o) ts v) T p -> chance c (o :: l) bits v T p.
Proof.
  intros Wo Wl Z Em Hp (L & L1 & L2 & L3 & ->). exists L. split; [exact L1|]. split; [|split; [|reflexivity]].
  - intros h. rewrite L2. split; intros (b' & w & H & Ht); exists b', w; (split; [|exact Ht]); [now apply branch_gated with ts|now apply (gate_branch c Hc o l ts) in H].
  - intros h q Hq b' w H. apply (L3 h q Hq b' w). now apply (gate_branch c Hc o l ts) in H.
Qed.
Lemma NoDup_apps {A} (a b : list A) : NoDup a -> NoDup b -> (forall x, In x a -> ~ In x b) -> NoDup (a ++ b).
Proof.
  intros H1 H2 H3. induction H1 as [|x a Hx H1 IH']; [exact H2|]. cbn. constructor.
  - intros Hin'. apply in_app_or in Hin'. destruct Hin' as [Hin'|Hin']; [auto|]. now apply (H3 x (or_introl eq_refl)).
  - apply IH'. intros y Hy. apply H3. now right.
Qed.
Lemma chance_measure o l mid st ts bits v (q : list bool -> R) : wf_op c o -> (forall x, In x l -> wf_op c x) -> ~ some_zero bits (so_cond Ccring o) -> so_kind Ccring o = KMeasure Ccring mid st ->
  placed c o ts -> (forall os, In os (outcomes (length ts)) -> chance c l (recorded st os bits) (kept c ts os v) T (q os)) ->
  chance c (o :: l) bits v T (Rsum (outcomes (length ts)) q).
Proof.
  intros Wo Wl Z Ek Hp H. unfold chance in H. destruct (pick (list_eq_dec bool_dec) _ [] _ H) as (f & Hf). clear H.
  set (g := fun os => map (fun hp : list bool * R => (os ++ fst hp, snd hp)) (f os)).
  assert (Hin : forall h p, In (h, p) (flat_map g (outcomes (length ts))) <-> exists os h', length os = length ts /\ h = os ++ h' /\ In (h', p) (f os)).
  { intros h p. rewrite in_flat_map. split.
    - intros (os & Hos & Hin). apply in_map_iff in Hin. destruct Hin as ((h' & p') & E & Hin). injection E as <- <-. exists os, h'. split; [now apply in_outcomes|auto].
    - intros (os & h' & Hos & -> & Hin). exists os. split; [now apply in_outcomes|]. apply in_map_iff. now exists (h', p). }
  exists (flat_map g (outcomes (length ts))). split; [|split; [|split]].
  - assert (K : forall L, NoDup L -> (forall os, In os L -> length os = length ts) -> NoDup (map fst (flat_map g L))).
    { induction 1 as [|os L Hos HL IHL]; intros HLl; [constructor|]. cbn [flat_map]. rewrite map_app. apply NoDup_apps.
      - unfold g. rewrite map_map. cbn [fst]. destruct (Hf os) as (N1 & _); [apply in_outcomes; apply HLl; now left|].
        rewrite <- (map_map fst (fun h => os ++ h)). apply NoDup_map_on; [exact N1|]. intros x y _ _. apply app_inv_head.
      - apply IHL. intros x Hx. apply HLl. now right.
      - intros x Hx Hx'. apply in_map_iff in Hx, Hx'. destruct Hx as (y & <- & Hy), Hx' as (y' & E & Hy'). unfold g in Hy. apply in_map_iff in Hy. destruct Hy as (z & <- & Hz).
        apply in_flat_map in Hy'. destruct Hy' as (os' & Ho' & Hy'). apply in_map_iff in Hy'. destruct Hy' as (z' & <- & Hz'). cbn in E.
        apply split_same in E; [|rewrite !HLl; cbn; auto]. destruct E as (-> & _). exact (Hos Ho'). }
    apply K; [apply NoDup_outcomes|]. intros os Ho. now apply in_outcomes.
  - intros h. split.
    + intros Hh. apply in_map_iff in Hh. destruct Hh as ((h0 & p) & E & Hh). cbn in E. subst h0. apply Hin in Hh. destruct Hh as (os & h' & Hl & -> & Hh).
      destruct (Hf os) as (_ & F2 & _); [now apply in_outcomes|]. assert (Hi : In h' (map fst (f os))) by (apply in_map_iff; exists (h', p); auto). apply F2 in Hi.
      destruct Hi as (b' & w & Hb & Ht). exists b', w. split; [|exact Ht]. exact (branch_measured c o l mid st ts os h' bits v b' w Z Ek Hp Hl Hb).
    + intros (b' & w & Hb & Ht). destruct (measure_branch c Hc o l mid st ts h bits v b' w Wo Wl Z Ek Hp Hb) as (os & h' & -> & Hl & Hb').
      destruct (Hf os) as (_ & F2 & _); [now apply in_outcomes|]. assert (Hi : In h' (map fst (f os))) by (apply F2; eauto). apply in_map_iff in Hi. destruct Hi as ((h0 & p) & E & Hi). cbn in E. subst h0.
      apply in_map_iff. exists (os ++ h', p). split; [reflexivity|]. apply Hin. eauto.
  - intros h p Hh b' w Hb. apply Hin in Hh. destruct Hh as (os & h' & Hl & -> & Hh).
    destruct (measure_branch c Hc o l mid st ts _ bits v b' w Wo Wl Z Ek Hp Hb) as (os' & h2 & E & Hl' & Hb'). apply split_same in E; [|congruence]. destruct E as (<- & <-).
    destruct (Hf os) as (_ & _ & F3 & _); [now apply in_outcomes|]. eapply F3; eauto.
  - rewrite Rsum_concat. apply Rsum_ext. intros os Ho. destruct (Hf os Ho) as (_ & _ & _ & ->). unfold g. now rewrite Rsum_map.
Qed.

(** Bits that are not written keep their values. *)
Lemma branch_other l h bits v bits' w : br l h bits v bits' w -> forall b, (forall o, In o l -> ~ In b (written o)) -> bits' b = bits b.
Proof.
  induction 1 as [bits v bits' w Hb Hw|o ops h bits v bits' w Hz H IH|o ops h ts bits v v' bits' w Hz Hm Hp Hv H IH|o ops mid st os h ts bits v v' bits' w Hz Hk Hp Hl Hv H IH];
    intros b Hn; [apply Hb|apply IH; intros x Hx; apply Hn; now right|apply IH; intros x Hx; apply Hn; now right|].
  rewrite IH by (intros x Hx; apply Hn; now right). apply recorded_other. specialize (Hn o (or_introl eq_refl)). unfold written in Hn. now rewrite Hk in Hn.
Qed.

(** Operations that the test does not see, at the end. *)
Lemma chance_end d bits v : fits d -> ignores T d -> chance c d bits v T (if T bits then weight n v else 0).
Proof.
  intros Fd Ht. destruct (branches_total c Hc d Fd bits v) as (B & B1 & B2 & B3 & B4).
  assert (E : forall h b' w, br d h bits v b' w -> T b' = T bits) by (intros h b' w H; apply Ht; intros b Hb; eapply branch_other; eauto).
  destruct (T bits) eqn:Eb.
  - exists B. split; [exact B1|]. split; [|split; [|now rewrite B4]].
    + intros h. rewrite B2. split; [intros (b' & w & H); exists b', w; split; [exact H|eapply E; eauto]|intros (b' & w & H & _); eauto].
    + intros h q Hq b' w H. symmetry. eapply B3; eauto.
  - exists []. split; [constructor|]. split; [|split; [intros h q []|reflexivity]].
    intros h. split; [intros []|]. intros (b' & w & H & Hx). rewrite (E h b' w H) in Hx. discriminate Hx.
Qed.

Lemma chance_drop k d : fits k -> fits d -> ignores T d -> forall bits v, exists p, chance c (k ++ d) bits v T p /\ chance c k bits v T p.
Proof.
  intros Fk Fd Ht. induction k as [|o k IH]; intros bits v.
  - exists (if T bits then weight n v else 0). split; [now apply chance_end|]. apply chance_end; [intros o []|]. intros f g H. apply HT. intros b. apply H. intros o [].
  - assert (Fk' : forall x, In x k -> wf_op c x /\ unitary_kind (so_kind Ccring x)) by (intros x Hx; apply Fk; now right). specialize (IH Fk').
    destruct (Fk o (or_introl eq_refl)) as (Wo & Uo). assert (W1 : forall x, In x k -> wf_op c x) by (intros x Hx; now apply Fk').
    assert (W2 : forall x, In x (k ++ d) -> wf_op c x) by (intros x Hx; apply in_app_or in Hx; destruct Hx; [now apply W1|now apply Fd]). cbn [app].
    destruct (zero_dec bits (so_cond Ccring o)) as [Z|Z]; [destruct (IH bits v) as (p & P1 & P2); exists p; split; now apply chance_blocked|].
    destruct (placed_wf Ccring c o Wo) as (ts & _ & Hp & _). destruct (is_measure (so_kind Ccring o)) eqn:Em.
    + destruct (so_kind Ccring o) as [mid st| | | | |] eqn:Eo; try discriminate Em.
      destruct (@pick (list bool) R (list_eq_dec bool_dec) (fun os p => chance c (k ++ d) (recorded st os bits) (kept c ts os v) T p /\ chance c k (recorded st os bits) (kept c ts os v) T p) 0 (outcomes (length ts)) (fun os _ => IH _ _)) as (q & Hq).
      exists (Rsum (outcomes (length ts)) q). split; apply chance_measure with mid st; auto; intros os Ho; now apply Hq.
    + destruct (IH bits (@gate_action Ccring false n (so_kind Ccring o) ts v)) as (p & P1 & P2). exists p. split; now apply chance_gate with ts.
Qed.
Lemma chance_exists l : fits l -> forall bits v, exists p, chance c l bits v T p.
Proof. intros Fl bits v. destruct (chance_drop l [] Fl) with (bits := bits) (v := v) as (p & _ & P); [intros o []| |eauto]. intros f g H. apply HT. intros b. apply H. intros o []. Qed.

(** The order of operations does not matter. *)
Lemma chance_carries l l' bits v p : carries c l l' -> carries c l' l -> fits l' -> chance c l bits v T p -> chance c l' bits v T p.
Proof.
  intros K K' Fl' (B & B1 & B2 & B3 & ->). destruct (chance_exists l' Fl' bits v) as (q & (D & D1 & D2 & D3 & _)).
  destruct (K bits v) as (f & F1 & F2). destruct (K' bits v) as (g & G1 & G2).
  assert (Nf : NoDup (map f (map fst B))).
  { apply NoDup_map_on; [exact B1|]. intros x y Hx Hy. apply B2 in Hx, Hy. destruct Hx as (b1 & w1 & Hx & _), Hy as (b2 & w2 & Hy & _). eauto. }
  assert (Ng : NoDup (map g (map fst D))).
  { apply NoDup_map_on; [exact D1|]. intros x y Hx Hy. apply D2 in Hx, Hy. destruct Hx as (b1 & w1 & Hx & _), Hy as (b2 & w2 & Hy & _). eauto. }
  assert (If : incl (map f (map fst B)) (map fst D)).
  { intros y Hy. apply in_map_iff in Hy. destruct Hy as (x & <- & Hx). apply B2 in Hx. destruct Hx as (b1 & w1 & Hx & Ht). apply D2. exists b1, w1. split; [now apply F1|exact Ht]. }
  assert (Ig : incl (map g (map fst D)) (map fst B)).
  { intros y Hy. apply in_map_iff in Hy. destruct Hy as (x & <- & Hx). apply D2 in Hx. destruct Hx as (b1 & w1 & Hx & Ht). apply B2. exists b1, w1. split; [now apply G1|exact Ht]. }
  assert (Jf : incl (map fst D) (map f (map fst B))).
  { apply NoDup_length_incl; [exact Nf| |exact If]. pose proof (NoDup_incl_length Ng Ig) as X. rewrite !map_length in *. exact X. }
  exists (map (fun x => (f (fst x), snd x)) B).
  assert (E : map fst (map (fun x : list bool * R => (f (fst x), snd x)) B) = map f (map fst B)) by (rewrite !map_map; reflexivity).
  rewrite E. split; [exact Nf|]. split; [|split; [|now rewrite Rsum_map]].
  - intros h. rewrite <- D2. split; [apply If|apply Jf].
  - intros h x Hx b' w Hb. apply in_map_iff in Hx. destruct Hx as ((h0 & y) & [= <- <-] & Hy). cbn [fst snd] in *.
    assert (Hi : In h0 (map fst B)) by (apply in_map_iff; exists (h0, y); auto). apply B2 in Hi. destruct Hi as (b1 & w1 & H0 & _). destruct (F1 _ _ _ H0) as (H1 & _).
    rewrite <- (B3 h0 y Hy b1 w1 H0). apply weight_ext. apply (branch_fun c Hc l' (f h0) bits v b1 w1 H1 b' w v); auto. intros o Ho. now apply Fl'.
Qed.

Theorem pruned_chance l k d : pruned l k d -> fits l -> ignores T d -> forall bits v, exists p,
  (forall x, chance c l bits v T x <-> x = p) /\ forall x, chance c k bits v T x <-> x = p.
Proof.
  intros H Fl Ht bits v.
  assert (Fk : forall o, In o k -> wf_op c o /\ unitary_kind (so_kind Ccring o)) by (intros o Ho; apply Fl; apply (pruned_in l k d H); auto).
  assert (Fd : forall o, In o d -> wf_op c o /\ unitary_kind (so_kind Ccring o)) by (intros o Ho; apply Fl; apply (pruned_in l k d H); auto).
  assert (Fkd : forall o, In o (k ++ d) -> wf_op c o /\ unitary_kind (so_kind Ccring o)) by (intros o Ho; apply in_app_or in Ho; destruct Ho; auto).
  assert (Re : reordered true l (k ++ d)) by (apply pruned_reordered; [exact H|discriminate]).
  assert (K1 : carries c (k ++ d) l) by (apply (reordered_carries c Hc true _ _ (reordered_sym _ _ _ Re)); intros o Ho; now apply Fkd).
  assert (K2 : carries c l (k ++ d)) by (apply (reordered_carries c Hc true _ _ Re); intros o Ho; now apply Fl).
  destruct (chance_drop k d Fk Fd Ht bits v) as (p & P1 & P2). assert (P0 : chance c l bits v T p) by (exact (chance_carries (k ++ d) l bits v p K1 K2 Fl P1)).
  exists p. split; intros x; (split; [|intros ->; assumption]); intros Hx; [exact (chance_fun l bits v x p Fl Hx P0)|exact (chance_fun k bits v x p Fk Hx P2)].
Qed.
End Chance.

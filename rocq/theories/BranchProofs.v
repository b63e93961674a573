(** Branches of a circuit: the final state is determined, scales with the state before, and the weights sum up. *)
From Coq Require Import List NArith Arith Bool Lia Reals Lra.
From Verif Require Import Py CRing Cplx KernelModel KernelSpec KernelProofs2 SimModel SimSpec SimReal SimProofs SimProofs2 SimProofs3 SimProofs4 MeasureSpec SimProofs7
  SampleModel SampleSpec SampleProofs SampleProofs2 BranchSpec.
Import ListNotations.
Local Open Scope R_scope.

(** ** Finite choice *)
Lemma pick {A B} (eqA : forall x y : A, {x = y} + {x <> y}) (Q : A -> B -> Prop) (b0 : B) l :
  (forall x, In x l -> exists y, Q x y) -> exists f, forall x, In x l -> Q x (f x).
Proof.
  induction l as [|a l IH]; intros H; [exists (fun _ => b0); intros x []|].
  destruct (H a (or_introl eq_refl)) as (y & Hy). destruct IH as (f & Hf); [intros x Hx; apply H; now right|].
  exists (fun x => if eqA x a then y else f x). intros x Hx. destruct (eqA x a) as [->|Hne]; [exact Hy|].
  destruct Hx as [E|Hx]; [congruence|auto].
Qed.
Definition bools_eq : forall x y : list bool, {x = y} + {x <> y} := list_eq_dec Bool.bool_dec.

(** ** Weights *)
Lemma weight_ext n v w : (forall i, (i < 2 ^ n)%N -> v i = w i) -> weight n v = weight n w.
Proof. exact (Rnorm2_ext n v w). Qed.
Lemma weight_scale n w a : weight n (fun i => Cmul (RtoC a) (w i)) = a * a * weight n w.
Proof. exact (Rnorm2_scale n w a). Qed.
Lemma weight_nonneg n w : 0 <= weight n w.
Proof. exact (Rnorm2_nonneg n w). Qed.
Lemma weight_shows n ts os v w : (forall i, (i < 2 ^ n)%N -> w i = if shows n i ts os then v i else C0) -> weight n w = joint n ts os v.
Proof.
  intros H. rewrite joint_if. apply Rsum_ext. intros i Hi. apply in_Nrange in Hi. rewrite (H i Hi).
  destruct (shows n i ts os); [reflexivity|]. unfold Cnorm2, C0, Re, Im. cbn. ring.
Qed.
Lemma outcomes_total n ts v : Rsum (outcomes (length ts)) (fun os => joint n ts os v) = weight n v.
Proof. pose proof (joint_sum n ts v (fun _ => true)) as H. cbn in H. exact H. Qed.
Lemma gate_weight n k ts v v' : good_kind Ccring k ts -> good_targets n ts -> unitary_kind k ->
  (forall i, (i < 2 ^ n)%N -> v' i = gate_action false n k ts v i) -> weight n v' = weight n v.
Proof.
  intros Hk Hg Hu H. change (weight n v') with (Rnorm2 n v'). change (weight n v) with (Rnorm2 n v).
  apply RtoC_inj. rewrite <- !inner_real. rewrite (inner_ext Ccring n v' _ v' _ H H). exact (gate_action_inner Ccring false n k ts v v Hk Hg Hu).
Qed.
Lemma mul_swap (a b : C) : Cmul a b = Cmul b a.
Proof. apply C_eq; unfold Cmul, Re, Im; cbn; ring. Qed.
Lemma gate_scale n k ts (v : N -> C) a i : good_kind Ccring k ts -> good_targets n ts ->
  @gate_action Ccring false n k ts (fun j => Cmul a (v j)) i = Cmul a (@gate_action Ccring false n k ts v i).
Proof.
  intros Hk Hg. destruct (good_kop Ccring k ts Hk) as (G & T & Cs & E). rewrite !(kop_action Ccring false n k ts G T Cs) by auto.
  rewrite (mul_swap a). etransitivity; [|exact (op_apply_scale Ccring false n G T Cs v a i)].
  unfold op_apply. destruct (forallb _ Cs); [|apply mul_swap]. apply sumf_ext. intros s _. f_equal. apply mul_swap.
Qed.

Section Circuit.
Variable c : scirc Ccring.
Hypothesis Hnd : NoDup (sc_qubits Ccring c).
Notation n := (num_qubits Ccring c).

Lemma branch_ext ops h bits v bits' w : branch c ops h bits v bits' w -> forall x, (forall o, In o ops -> wf_op c o) ->
  (forall i, (i < 2 ^ n)%N -> x i = v i) -> branch c ops h bits x bits' w.
Proof.
  induction 1 as [bits v bits' w Hb Hw|o ops h bits v bits' w Hz H IH|o ops h ts bits v v' bits' w Hz Hm Hp Hv H IH|o ops mid st os h ts bits v v' bits' w Hz Hk Hp Hl Hv H IH];
    intros x Hwf Hx.
  - constructor; [exact Hb|]. intros i Hi. now rewrite Hw, Hx.
  - apply branch_blocked; [exact Hz|]. apply IH; [intros; apply Hwf; now right|exact Hx].
  - destruct (placed_good Ccring c o ts (Hwf o (or_introl eq_refl)) Hnd Hp Hm) as [Hg Hkk].
    apply branch_gate with (ts := ts) (v' := v'); auto. intros i Hi. rewrite Hv by exact Hi. apply gate_action_ext; auto. intros; symmetry; auto.
  - apply branch_measure with (mid := mid) (store := st) (ts := ts) (v' := v'); auto. intros i Hi. rewrite Hv by exact Hi. now rewrite Hx.
Qed.

Lemma branch_scale a ops h bits v bits' w : branch c ops h bits v bits' w -> (forall o, In o ops -> wf_op c o) ->
  branch c ops h bits (fun i => Cmul a (v i)) bits' (fun i => Cmul a (w i)).
Proof.
  induction 1 as [bits v bits' w Hb Hw|o ops h bits v bits' w Hz H IH|o ops h ts bits v v' bits' w Hz Hm Hp Hv H IH|o ops mid st os h ts bits v v' bits' w Hz Hk Hp Hl Hv H IH];
    intros Hwf.
  - constructor; [exact Hb|]. intros i Hi. now rewrite Hw.
  - apply branch_blocked; [exact Hz|]. apply IH; intros; apply Hwf; now right.
  - destruct (placed_good Ccring c o ts (Hwf o (or_introl eq_refl)) Hnd Hp Hm) as [Hg Hkk].
    apply branch_gate with (ts := ts) (v' := fun i => Cmul a (v' i)); auto.
    + intros i Hi. rewrite Hv by exact Hi. symmetry. now apply gate_scale.
    + apply IH; intros; apply Hwf; now right.
  - apply branch_measure with (mid := mid) (store := st) (ts := ts) (v' := fun i => Cmul a (v' i)); auto.
    + intros i Hi. rewrite Hv by exact Hi. destruct (shows _ i ts os); [reflexivity|]. apply C_eq; unfold Cmul, C0, Re, Im; cbn; ring.
    + apply IH; intros; apply Hwf; now right.
Qed.

Lemma split_same {A} (a a' b b' : list A) : length a = length a' -> a ++ b = a' ++ b' -> a = a' /\ b = b'.
Proof.
  revert a'. induction a as [|x a IH]; intros [|x' a'] Hl E; try discriminate; [auto|].
  injection E as -> E. injection Hl as Hl. destruct (IH a' Hl E) as [-> ->]. auto.
Qed.

(** The outcomes determine what is left. *)
Lemma branch_fun ops h bits v bits1 w1 : branch c ops h bits v bits1 w1 -> forall bits2 w2 x, (forall o, In o ops -> wf_op c o) ->
  (forall i, (i < 2 ^ n)%N -> x i = v i) -> branch c ops h bits x bits2 w2 ->
  (forall b, bits2 b = bits1 b) /\ forall i, (i < 2 ^ n)%N -> w2 i = w1 i.
Proof.
  induction 1 as [bits v bits' w Hb Hw|o ops h bits v bits' w Hz H IH|o ops h ts bits v v' bits' w Hz Hm Hp Hv H IH|o ops mid st os h ts bits v v' bits' w Hz Hk Hp Hl Hv H IH];
    intros bits2 w2 x Hwf Hx H2.
  - inversion H2 as [? ? ? ? Hb2 Hw2| | |]; subst. split; [intros b; now rewrite Hb, Hb2|]. intros i Hi. now rewrite Hw, Hw2, Hx.
  - inversion H2 as [|? ? ? ? ? ? ? Hz2 H2'|? ? ? ? ? ? ? ? ? Hz2|? ? ? ? ? ? ? ? ? ? ? ? Hz2]; subst; try contradiction.
    apply (IH _ _ x); auto. intros; apply Hwf; now right.
  - inversion H2 as [|? ? ? ? ? ? ? Hz2|? ? ? ts2 ? ? x' ? ? _ Hm2 Hp2 Hv2 H2'|? ? ? ? ? ? ? ? ? ? ? ? _ Hk2]; subst; try contradiction.
    + assert (ts2 = ts) by (eapply placed_unique; eauto). subst ts2.
      destruct (placed_good Ccring c o ts (Hwf o (or_introl eq_refl)) Hnd Hp Hm) as [Hg Hkk].
      apply (IH _ _ x'); auto; [intros; apply Hwf; now right|]. intros i Hi. rewrite Hv, Hv2 by exact Hi. exact (gate_action_ext Ccring false n _ ts x v i Hkk Hg Hi Hx).
    + rewrite Hk2 in Hm. discriminate.
  - inversion H2 as [|? ? ? ? ? ? ? Hz2|? ? ? ts2 ? ? x' ? ? _ Hm2|? ? mid2 st2 os2 h2 ts2 ? ? x' ? ? _ Hk2 Hp2 Hl2 Hv2 H2']; subst; try contradiction.
    + rewrite Hk in Hm2. discriminate.
    + assert (ts2 = ts) by (eapply placed_unique; eauto). subst ts2. rewrite Hk in Hk2. injection Hk2 as <- <-.
      match goal with E : os2 ++ h2 = os ++ h |- _ => destruct (split_same os2 os h2 h ltac:(congruence) E) as [-> ->] end.
      apply (IH _ _ x'); auto; [intros; apply Hwf; now right|]. intros i Hi. rewrite Hv, Hv2 by exact Hi. now rewrite Hx.
Qed.

(** ** The weights of all branches sum up to the weight of the state before *)
Lemma Rsum_concat {I J} (l : list I) (g : I -> list J) f : Rsum (flat_map g l) f = Rsum l (fun i => Rsum (g i) f).
Proof. induction l as [|i l IH]; [reflexivity|]. cbn [flat_map]. rewrite Rsum_apps, IH. reflexivity. Qed.

Lemma NoDup_outcomes k : NoDup (outcomes k).
Proof.
  induction k as [|k IH]; cbn [outcomes]; [repeat constructor; auto|].
  assert (Hm : forall (b : bool) l, NoDup l -> NoDup (map (cons b) l)).
  { intros b l H. induction H as [|x l Hx H IH']; cbn; constructor; auto. intros Hin. apply in_map_iff in Hin. destruct Hin as (y & E & Hy). injection E as ->. auto. }
  assert (Ha : forall (l m : list (list bool)), NoDup l -> NoDup m -> (forall x, In x l -> ~ In x m) -> NoDup (l ++ m)).
  { intros l m H1 H2 H3. induction H1 as [|x l Hx H1 IH']; [exact H2|]. cbn. constructor.
    - intros Hin. apply in_app_or in Hin. destruct Hin as [Hin|Hin]; [auto|]. now apply (H3 x (or_introl eq_refl)).
    - apply IH'. intros y Hy. apply H3. now right. }
  apply Ha; auto. intros x Hx Hx'. apply in_map_iff in Hx, Hx'. destruct Hx as (? & <- & _), Hx' as (? & E & _). discriminate.
Qed.
Lemma in_outcomes k os : In os (outcomes k) <-> length os = k.
Proof.
  revert os. induction k as [|k IH]; intros os; cbn [outcomes].
  - split; [intros [<-|[]]; reflexivity|]. destruct os; [now left|discriminate].
  - rewrite in_app_iff, !in_map_iff. split.
    + intros [(x & <- & H)|(x & <- & H)]; apply IH in H; cbn; lia.
    + destruct os as [|[|] os]; [discriminate| |]; intros H; injection H as H; [right|left]; exists os; split; auto; now apply IH.
Qed.

Definition covers (ops : list (sop Ccring)) (bits : nat -> option bool) (v : N -> C) (l : list (list bool * R)) : Prop :=
  NoDup (map fst l) /\ (forall h, In h (map fst l) <-> exists bits' w, branch c ops h bits v bits' w) /\
  (forall h p, In (h, p) l -> forall bits' w, branch c ops h bits v bits' w -> p = weight n w) /\ Rsum l snd = weight n v.

Lemma branches_total ops : (forall o, In o ops -> wf_op c o /\ unitary_kind (so_kind Ccring o)) ->
  forall bits v, exists l, covers ops bits v l.
Proof.
  induction ops as [|o ops IH]; intros Hops bits v.
  - exists [([], weight n v)]. split; [repeat constructor; auto|]. split; [|split].
    + intros h. split; [intros [<-|[]]; exists bits, v; now constructor|]. intros (bits' & w & H). inversion H; subst. now left.
    + intros h p [E|[]] bits' w H. injection E as <- <-. inversion H as [? ? ? ? _ Hw| | |]; subst. apply weight_ext. intros i Hi. now rewrite Hw.
    + unfold Rsum. cbn. ring.
  - assert (Hops' : forall y, In y ops -> wf_op c y /\ unitary_kind (so_kind Ccring y)) by (intros; apply Hops; now right).
    destruct (Hops o (or_introl eq_refl)) as [Hw Hu].
    destruct (placed_wf Ccring c o Hw) as (ts & _ & Hp & _).
    pose proof (is_blocked_spec Ccring (mkMem Ccring bits 0 (fun _ => None) (fun _ => []) 0) o) as Hbl. cbn [m_bits] in Hbl.
    assert (Hdec : some_zero bits (so_cond Ccring o) \/ ~ some_zero bits (so_cond Ccring o)).
    { destruct (is_blocked Ccring _ o); [left; now apply Hbl|right]. intros H. apply Hbl in H. discriminate. }
    destruct Hdec as [Hz|Hz].
    + destruct (IH Hops' bits v) as (l & L1 & L2 & L3 & L4). exists l. split; [exact L1|]. split; [|split; [|exact L4]].
      * intros h. rewrite L2. split; intros (bits' & w & H).
        -- exists bits', w. now apply branch_blocked.
        -- exists bits', w. inversion H; subst; try contradiction; assumption.
      * intros h p Hin bits' w H. apply (L3 h p Hin bits'). inversion H; subst; try contradiction; assumption.
    + destruct (so_kind Ccring o) as [mid st| | | | |] eqn:Ek.
      1:{ set (part := fun (os : list bool) (i : N) => if shows n i ts os then v i else C0).
          assert (Hex : forall os, In os (outcomes (length ts)) -> exists l, covers ops (recorded st os bits) (part os) l) by (intros; apply IH; auto).
          destruct (pick bools_eq _ [] _ Hex) as (f & Hf). clear Hex.
          exists (flat_map (fun os => map (fun hp => (os ++ fst hp, snd hp)) (f os)) (outcomes (length ts))).
          assert (Hin : forall h p, In (h, p) (flat_map (fun os => map (fun hp => (os ++ fst hp, snd hp)) (f os)) (outcomes (length ts))) <->
            exists os h', length os = length ts /\ h = os ++ h' /\ In (h', p) (f os)).
          { intros h p. rewrite in_flat_map. split.
            - intros (os & Hos & Hin). apply in_map_iff in Hin. destruct Hin as ([h' p'] & E & Hin). injection E as <- <-.
              exists os, h'. split; [now apply in_outcomes|]. auto.
            - intros (os & h' & Hos & -> & Hin). exists os. split; [now apply in_outcomes|]. apply in_map_iff. now exists (h', p). }
          assert (Hbr : forall h bits' w, branch c (o :: ops) h bits v bits' w <->
            exists os h', length os = length ts /\ h = os ++ h' /\ branch c ops h' (recorded st os bits) (part os) bits' w).
          { intros h bits' w. split.
            - intros H. inversion H as [|? ? ? ? ? ? ? Hz2|? ? ? ts2 ? ? x' ? ? _ Hm2|? ? mid2 st2 os h' ts2 ? ? x' ? ? _ Hk2 Hp2 Hl2 Hv2 H']; subst; try contradiction.
              + rewrite Ek in Hm2. discriminate.
              + assert (ts2 = ts) by (eapply placed_unique; eauto). subst ts2. rewrite Ek in Hk2. injection Hk2 as <- <-.
                exists os, h'. split; [exact Hl2|]. split; [reflexivity|]. eapply branch_ext; [exact H'|intros; now apply Hops'|].
                intros i Hi. now rewrite Hv2.
            - intros (os & h' & Hl & -> & H). apply branch_measure with (mid := mid) (store := st) (ts := ts) (v' := part os); auto. }
          split; [|split; [|split]].
          - rewrite flat_map_concat_map, concat_map, map_map.
            assert (Hnd2 : forall L, NoDup L -> (forall os, In os L -> length os = length ts) ->
              NoDup (concat (map (fun os => map fst (map (fun hp => (os ++ fst hp, snd hp)) (f os))) L))).
            { induction 1 as [|os L Hos HL IHL]; intros HLl; [constructor|]. cbn [map concat].
              assert (Ha : forall (a b : list (list bool)), NoDup a -> NoDup b -> (forall x, In x a -> ~ In x b) -> NoDup (a ++ b)).
              { intros a b H1 H2 H3. induction H1 as [|x a Hx H1 IH']; [exact H2|]. cbn. constructor.
                - intros Hin'. apply in_app_or in Hin'. destruct Hin' as [Hin'|Hin']; [auto|]. now apply (H3 x (or_introl eq_refl)).
                - apply IH'. intros y Hy. apply H3. now right. }
              apply Ha.
              - rewrite map_map. cbn [fst]. destruct (Hf os) as (N1 & _); [apply in_outcomes; apply HLl; now left|].
                rewrite <- (map_map fst (fun h => os ++ h)). clear -N1. induction N1 as [|x a Hx N1 IH']; cbn; constructor; auto.
                intros Hin'. apply in_map_iff in Hin'. destruct Hin' as (y & E & Hy). apply app_inv_head in E. subst. auto.
              - apply IHL. intros; apply HLl; now right.
              - intros x Hx Hx'. rewrite map_map in Hx. apply in_map_iff in Hx. destruct Hx as ([h p] & <- & _). cbn [fst] in Hx'.
                apply in_concat in Hx'. destruct Hx' as (y & Hy & Hx'). apply in_map_iff in Hy. destruct Hy as (os' & <- & Hos').
                rewrite map_map in Hx'. apply in_map_iff in Hx'. destruct Hx' as ([h' p'] & E & _). cbn [fst] in E.
                destruct (split_same os' os h' h) as [-> _]; [|exact E|contradiction]. exact (eq_trans (HLl os' (or_intror Hos')) (eq_sym (HLl os (or_introl eq_refl)))). }
            apply Hnd2; [apply NoDup_outcomes|]. intros os. apply in_outcomes.
          - intros h. split.
            + intros H. apply in_map_iff in H. destruct H as ([h0 p] & E & H). cbn in E. subst h0. apply Hin in H.
              destruct H as (os & h' & Hl & -> & Hi). destruct (Hf os) as (_ & N2 & _); [now apply in_outcomes|].
              destruct (proj1 (N2 h')) as (bits' & w & H); [apply in_map_iff; now exists (h', p)|].
              exists bits', w. apply Hbr. exists os, h'. auto.
            + intros (bits' & w & H). apply Hbr in H. destruct H as (os & h' & Hl & -> & H).
              destruct (Hf os) as (_ & N2 & _); [now apply in_outcomes|].
              assert (Hi : In h' (map fst (f os))) by (apply N2; eauto). apply in_map_iff in Hi. destruct Hi as ([h0 p] & E & Hi). cbn in E. subst h0.
              apply in_map_iff. exists (os ++ h', p). split; [reflexivity|]. apply Hin. exists os, h'. auto.
          - intros h p Hi bits' w H. apply Hin in Hi. destruct Hi as (os & h' & Hl & -> & Hi). apply Hbr in H. destruct H as (os2 & h2 & Hl2 & E & H).
            destruct (split_same os os2 h' h2 ltac:(congruence) E) as [<- <-]. destruct (Hf os) as (_ & _ & N3 & _); [now apply in_outcomes|].
            exact (N3 h' p Hi bits' w H).
          - rewrite Rsum_concat. rewrite <- (outcomes_total n ts v). apply Rsum_ext. intros os Hos. rewrite Rsum_map. cbn [snd].
            destruct (Hf os Hos) as (_ & _ & _ & N4). etransitivity; [exact N4|]. apply weight_shows. reflexivity. }
      all: assert (Hm : is_measure (so_kind Ccring o) = false) by (now rewrite Ek);
        destruct (placed_good Ccring c o ts Hw Hnd Hp Hm) as [Hg Hkk]; rewrite <- Ek in Hu;
        destruct (IH Hops' bits (gate_action false n (so_kind Ccring o) ts v)) as (l & L1 & L2 & L3 & L4);
        assert (Hbr : forall h bits' w, branch c (o :: ops) h bits v bits' w <-> branch c ops h bits (gate_action false n (so_kind Ccring o) ts v) bits' w) by
         (intros h bits' w; split; intros H;
           [inversion H as [|? ? ? ? ? ? ? Hz2|? ? ? ts2 ? ? x' ? ? _ Hm2 Hp2 Hv2 H'|? ? ? ? ? ? ? ? ? ? ? ? _ Hk2]; subst; try contradiction;
             [assert (ts2 = ts) by (eapply placed_unique; eauto); subst ts2; eapply branch_ext; [exact H'|intros; now apply Hops'|]; intros i Hi; now rewrite Hv2
             |rewrite Hk2 in Hm; discriminate]
           |apply branch_gate with (ts := ts) (v' := gate_action false n (so_kind Ccring o) ts v); auto]);
        exists l; (split; [exact L1|]); (split; [|split]);
        [intros h; rewrite L2; split; intros (bits' & w & H); exists bits', w; now apply Hbr
        |intros h p Hi bits' w H; apply Hbr in H; exact (L3 h p Hi bits' w H)
        |etransitivity; [exact L4|]; apply (gate_weight n (so_kind Ccring o) ts); auto].
Qed.
End Circuit.

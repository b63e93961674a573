(** Gates and measurements without common qubits can change places. *)
From Coq Require Import List NArith Arith Bool Lia Reals Lra Permutation.
From Verif Require Import Py CRing Cplx KernelModel KernelSpec KernelProofs KernelProofs2 SimModel SimSpec SimReal SimProofs SimProofs2 SimProofs3 SimProofs4 MeasureSpec SimProofs7
  UnitarySpec CallSpec CallProofs CallProofs2 CallProofs3 SampleModel SampleSpec SampleProofs SampleProofs2 BranchSpec BranchProofs BranchProofs2 GateModel GateProofs2 RewriteSpec RewriteProofs
  RewriteProofs2 OrderSpec.
Import ListNotations.
Local Open Scope R_scope.

(** ** Projections *)
Section Mask.
Variable n : N.
Variables (k : kind Ccring) (ts : list N).
Hypothesis Hk : good_kind Ccring k ts.
Hypothesis Hg : good_targets n ts.
Notation gate := (@gate_action Ccring false n k ts).

(** Removing amplitudes by the values of qubits that are kept, and scaling, commutes with the gate. *)
Lemma op_mask G T Cs (M : N -> bool) a (v : N -> C) i :
  (forall s, (s < 2 ^ N.of_nat (length T))%N -> M (write false n i T s) = M i \/ G (read false n i T) s = C0) ->
  @op_apply Ccring false n G T Cs (fun j => if M j then Cmul a (v j) else C0) i = if M i then Cmul a (@op_apply Ccring false n G T Cs v i) else C0.
Proof.
  intros HM. unfold op_apply. destruct (forallb _ Cs) eqn:F; [|reflexivity].
  destruct (M i) eqn:Mi.
  - etransitivity; [|exact (sumf_scale Ccring _ _ a)]. apply sumf_ext. intros s Hs. apply in_Nrange in Hs. destruct (HM s Hs) as [-> | ->]; [cbn; ceq; ring|].
    destruct (M _); cbn; ceq; ring.
  - apply (sumf_zero Ccring). intros s Hs. apply in_Nrange in Hs. destruct (HM s Hs) as [-> | ->]; [cbn; ceq; ring|]. destruct (M _); cbn; ceq; ring.
Qed.

Lemma one_index s : (s < 2 ^ N.of_nat 1)%N -> s = 0%N \/ s = 1%N.
Proof. change (2 ^ N.of_nat 1)%N with 2%N. lia. Qed.
Lemma diagonal_off G T i s : length T = 1%nat -> diagonal G -> (forall q, In q T -> (q < n)%N) -> (s < 2 ^ N.of_nat (length T))%N ->
  write false n i T s = i \/ G (read false n i T) s = C0.
Proof.
  intros HT (D1 & D2) HL Hs. assert (Hr : (read false n i T < 2 ^ N.of_nat (length T))%N) by exact (read_lt (mkParams false n T []) T i). rewrite HT in Hs, Hr. apply one_index in Hs, Hr.
  assert (NT : NoDup T) by (destruct T as [|t [|]]; try discriminate HT; repeat constructor; intros []).
  pose proof (write_read n T i NT HL) as W.
  destruct Hr as [Er|Er], Hs as [-> | ->]; rewrite Er in W |- *; auto.
Qed.
(** What is kept, for the gate as a matrix with targets and controls. *)
Lemma kop_keeps G T Cs t : kop Ccring k ts = Some (G, T, Cs) -> keeps k ts t -> ~ In t T \/ (length T = 1%nat /\ diagonal G).
Proof.
  clear Hk. destruct Hg as (Hnd & _). intros H K.
  destruct k as [mid bits| | | |nc dim m|nq m]; cbn in H, K; repeat match type of H with match ?x with _ => _ end = _ => destruct x; try discriminate end; inversion H; subst; cbn in K.
  all: repeat match goal with H : NoDup (_ :: _) |- _ => inversion H; clear H; subst end; cbn in *.
  all: try (right; split; [reflexivity|tauto]).
  all: try (left; intuition congruence).
  all: destruct K as [K|K]; [left; intuition congruence|right; split; [reflexivity|exact K]].
Qed.
Lemma kept_write us os G T Cs i s : kop Ccring k ts = Some (G, T, Cs) -> (forall t, In t us -> (t < n)%N /\ (In t ts -> keeps k ts t)) -> (s < 2 ^ N.of_nat (length T))%N ->
  shows n (write false n i T s) us os = shows n i us os \/ G (read false n i T) s = C0.
Proof.
  intros E H Hs. destruct (kop_targets Ccring _ _ _ _ _ E (proj1 Hg)) as (N1 & I1).
  assert (NT : NoDup T) by (eapply NoDup_left; eassumption).
  assert (LT : forall q, In q T -> (q < n)%N) by (intros q Hq; apply Hg, I1, in_or_app; now left).
  assert (X : (length T = 1%nat /\ diagonal G) \/ forall t, In t us -> (t < n)%N /\ ~ In t T).
  { clear -E H I1 Hg. induction us as [|u us IH]; [right; intros t []|]. destruct IH as [IH|IH]; [intros t Ht; apply H; now right|now left|].
    destruct (H u (or_introl eq_refl)) as (Hu & Hku). destruct (in_dec N.eq_dec u T) as [Hi|Hi].
    - destruct (kop_keeps G T Cs u E) as [K|K]; [apply Hku, I1, in_or_app; now left|contradiction|now left].
    - right. intros t [<-|Ht]; auto. }
  destruct X as [(X1 & X2)|X].
  - destruct (diagonal_off G T i s X1 X2 LT Hs) as [-> |Z]; auto.
  - left. clear H. revert os. induction us as [|u us IH]; intros os; [reflexivity|]. destruct os as [|o os]; [reflexivity|]. cbn [shows].
    rewrite IH by (intros; apply X; now right). destruct (X u (or_introl eq_refl)). now rewrite (other_bit n).
Qed.
Lemma gate_shows us os a v i : (i < 2 ^ n)%N -> (forall t, In t us -> (t < n)%N /\ (In t ts -> keeps k ts t)) ->
  gate (fun j => if shows n j us os then Cmul a (v j) else C0) i = if shows n i us os then Cmul a (gate v i) else C0.
Proof.
  intros Hi H. destruct (good_kop Ccring k ts Hk) as (G & T & Cs & E). rewrite !(kop_action Ccring false n k ts G T Cs) by auto.
  apply op_mask. intros s Hs. eapply kept_write; eauto.
Qed.

Hypothesis Hu : unitary_kind k.
Lemma gate_prob t o v v' : (t < n)%N -> (In t ts -> keeps k ts t) -> (forall i, (i < 2 ^ n)%N -> v' i = gate v i) -> prob false n t o v' = prob false n t o v.
Proof.
  intros Ht Hi Hv.
  assert (P : forall x, prob false n t o x = weight n (fun j => if shows n j [t] [o] then x j else C0)).
  { intros x. rewrite prob_if. apply Rsum_ext. intros i _. cbn [shows]. rewrite andb_true_r. destruct (Bool.eqb _ o); [reflexivity|]. unfold Cnorm2, C0, Re, Im. cbn. ring. }
  rewrite !P. apply (gate_weight n k ts); auto. intros i Hl.
  rewrite (gate_action_ext Ccring false n k ts _ (fun j => if shows n j [t] [o] then Cmul C1 (v j) else C0) i Hk Hg Hl); [|intros j _; destruct (shows n j [t] [o]); [ceq; ring|reflexivity]].
  rewrite gate_shows; [|exact Hl|intros x [<-|[]]; auto]. rewrite (Hv i Hl). destruct (shows n i [t] [o]); [ceq; ring|reflexivity].
Qed.

Lemma gate_collapses us rs os v w : collapses n us rs os v w -> (forall t, In t us -> (t < n)%N /\ (In t ts -> keeps k ts t)) ->
  forall v' w', (forall i, (i < 2 ^ n)%N -> v' i = gate v i) -> (forall i, (i < 2 ^ n)%N -> w' i = gate w i) -> collapses n us rs os v' w'.
Proof.
  induction 1 as [v w Hw|t us r rs o os v v1 w Ho Hp Hv1 H IH]; intros Hus v' w' Hv' Hw'.
  - constructor. intros i Hi. rewrite (Hw' i Hi), (Hv' i Hi). apply (gate_action_ext Ccring); auto.
  - destruct (Hus t (or_introl eq_refl)) as (Ht & Hnt). pose proof (gate_prob t false v v' Ht Hnt Hv') as P0. pose proof (gate_prob t o v v' Ht Hnt Hv') as P1.
    apply collapses_cons with (v' := gate v1); [rewrite P0; exact Ho|rewrite P1; exact Hp| |].
    + intros i Hi. rewrite P1, (Hv' i Hi).
      rewrite (gate_action_ext Ccring false n k ts v1 (fun j => if shows n j [t] [o] then Cmul (RtoC (1 / sqrt (prob false n t o v))) (v j) else C0) i Hk Hg Hi);
        [|intros j Hj; rewrite (Hv1 j Hj); cbn [shows]; now rewrite andb_true_r].
      rewrite gate_shows; [|exact Hi|intros x [<-|[]]; auto]. cbn [shows]. now rewrite andb_true_r.
    + apply IH; auto. intros x Hx. apply Hus. now right.
Qed.
End Mask.

(** ** Gates that keep their common qubits *)
Section Shared.
Variable n : N.
Notation wr := (write false n).
(** Common controls. *)
Lemma op_apply_swap3 (G H : N -> N -> C) T Cs U Ds (v : N -> C) i : NoDup (T ++ Cs) -> NoDup (U ++ Ds) ->
  (forall q, In q (T ++ Cs) -> (q < n)%N) -> (forall q, In q (U ++ Ds) -> (q < n)%N) ->
  (forall q, In q T -> ~ In q (U ++ Ds)) -> (forall q, In q U -> ~ In q (T ++ Cs)) ->
  @op_apply Ccring false n G T Cs (@op_apply Ccring false n H U Ds v) i = @op_apply Ccring false n H U Ds (@op_apply Ccring false n G T Cs v) i.
Proof.
  intros N1 N2 L1 L2 D1 D2.
  assert (NT : NoDup T) by (eapply NoDup_left; eassumption). assert (NU : NoDup U) by (eapply NoDup_left; eassumption).
  assert (LT : forall q, In q T -> (q < n)%N) by (intros; apply L1, in_or_app; now left).
  assert (LU : forall q, In q U -> (q < n)%N) by (intros; apply L2, in_or_app; now left).
  assert (UT : forall q, In q U -> (q < n)%N /\ ~ In q T) by (intros q Hq; split; [auto|]; intros Hq'; apply (D2 q Hq), in_or_app; now left).
  assert (DT : forall q, In q Ds -> (q < n)%N /\ ~ In q T) by (intros q Hq; split; [apply L2, in_or_app; now right|]; intros Hq'; apply (D1 q Hq'), in_or_app; now right).
  assert (TU : forall q, In q T -> (q < n)%N /\ ~ In q U) by (intros q Hq; split; [auto|]; intros Hq'; now apply (proj2 (UT q Hq'))).
  assert (CU : forall q, In q Cs -> (q < n)%N /\ ~ In q U) by (intros q Hq; split; [apply L1, in_or_app; now right|]; intros Hq'; apply (D2 q Hq'), in_or_app; now right).
  assert (EA : forall s, forallb (qbit false n (wr i T s)) Ds = forallb (qbit false n i) Ds) by (intros; now apply other_forallb).
  assert (EB : forall s, forallb (qbit false n (wr i U s)) Cs = forallb (qbit false n i) Cs) by (intros; now apply other_forallb).
  unfold op_apply. destruct (forallb (qbit false n i) Cs) eqn:E1, (forallb (qbit false n i) Ds) eqn:E2.
  - transitivity (@sumf Ccring N (Nrange (2 ^ N.of_nat (length T))) (fun s => @sumf Ccring N (Nrange (2 ^ N.of_nat (length U)))
      (fun u => Cmul (G (read false n i T) s) (Cmul (H (read false n i U) u) (v (wr (wr i T s) U u)))))).
    + apply sumf_ext. intros s _. rewrite EA, other_read by auto. symmetry. apply (sumf_scale Ccring).
    + rewrite sumf_swap. apply sumf_ext. intros u _. rewrite EB, other_read by auto.
      etransitivity; [|apply (sumf_scale Ccring)]. apply sumf_ext. intros s _. rewrite (write_swap n T U) by auto. cbn. ceq; ring.
  - apply sumf_ext. intros s _. now rewrite EA.
  - symmetry. apply sumf_ext. intros s _. now rewrite EB.
  - reflexivity.
Qed.
(** A diagonal gate multiplies each amplitude by a number. *)
Definition phase_of (G : N -> N -> C) (T Cs : list N) (i : N) : C := if forallb (qbit false n i) Cs then G (read false n i T) (read false n i T) else C1.
Lemma diagonal_apply (G : N -> N -> C) T Cs (v : N -> C) i : length T = 1%nat -> diagonal G -> (forall q, In q T -> (q < n)%N) ->
  @op_apply Ccring false n G T Cs v i = Cmul (phase_of G T Cs i) (v i).
Proof.
  intros HT (D1 & D2) HL. unfold op_apply, phase_of. destruct (forallb _ Cs) eqn:F; [|ceq; ring].
  assert (NT : NoDup T) by (destruct T as [|t [|]]; try discriminate HT; repeat constructor; intros []).
  pose proof (write_read n T i NT HL) as W. assert (Hr : (read false n i T < 2 ^ N.of_nat (length T))%N) by exact (read_lt (mkParams false n T []) T i). rewrite HT in *. apply one_index in Hr.
  change (Nrange (2 ^ N.of_nat 1)) with [0%N; 1%N]. unfold sumf. cbn [map fold_right].
  destruct Hr as [Er|Er]; rewrite Er in W |- *; rewrite W.
  - rewrite D1. cbn. ceq; ring.
  - rewrite D2. cbn. ceq; ring.
Qed.
Lemma phase_swap (G H : N -> N -> C) T Cs U Ds (v : N -> C) i : length T = 1%nat -> diagonal G -> (forall q, In q (T ++ Cs) -> (q < n)%N) ->
  NoDup (U ++ Ds) -> (forall q, In q (U ++ Ds) -> (q < n)%N) -> (length U = 1%nat /\ diagonal H \/ forall q, In q U -> ~ In q (T ++ Cs)) ->
  @op_apply Ccring false n G T Cs (@op_apply Ccring false n H U Ds v) i = @op_apply Ccring false n H U Ds (@op_apply Ccring false n G T Cs v) i.
Proof.
  intros HT DG L1 N2 L2 HU. assert (LT : forall q, In q T -> (q < n)%N) by (intros; apply L1, in_or_app; now left).
  assert (LU : forall q, In q U -> (q < n)%N) by (intros; apply L2, in_or_app; now left).
  rewrite diagonal_apply by auto. destruct HU as [(HU & DH)|HU].
  - rewrite !diagonal_apply by auto. ceq; ring.
  - assert (NU : NoDup U) by (eapply NoDup_left; eassumption). unfold op_apply at 1 2. destruct (forallb (qbit false n i) Ds) eqn:F; [|now rewrite diagonal_apply by auto].
    etransitivity; [symmetry; exact (sumf_scale Ccring _ _ (phase_of G T Cs i))|]. apply sumf_ext. intros s _. rewrite diagonal_apply by auto.
    assert (X : phase_of G T Cs (wr i U s) = phase_of G T Cs i).
    { unfold phase_of. rewrite other_forallb, other_read; auto; intros q Hq; (split; [apply L1, in_or_app; auto|]); intros Hq'; apply (HU q Hq'), in_or_app; auto. }
    rewrite X. cbn. ceq; ring.
Qed.

Lemma gates_shared k k' ts ts' (v : N -> C) i : (i < 2 ^ n)%N -> good_kind Ccring k ts -> good_kind Ccring k' ts' -> good_targets n ts -> good_targets n ts' ->
  (forall t, In t ts -> In t ts' -> keeps k ts t /\ keeps k' ts' t) ->
  @gate_action Ccring false n k ts (@gate_action Ccring false n k' ts' v) i = @gate_action Ccring false n k' ts' (@gate_action Ccring false n k ts v) i.
Proof.
  intros Hi K1 K2 G1 G2 Hd. destruct (good_kop Ccring k ts K1) as (G & T & Cs & E1). destruct (good_kop Ccring k' ts' K2) as (H & U & Ds & E2).
  destruct (kop_targets Ccring _ _ _ _ _ E1 (proj1 G1)) as (N1 & I1). destruct (kop_targets Ccring _ _ _ _ _ E2 (proj1 G2)) as (N2 & I2).
  rewrite !(kop_action Ccring false n k ts G T Cs) by auto. rewrite (kop_action Ccring false n k' ts' H U Ds) by auto.
  rewrite (op_apply_vec false n G T Cs (@gate_action Ccring false n k' ts' v) (@op_apply Ccring false n H U Ds v)); [|intros; apply G1, I1, in_or_app; now left|exact Hi|intros j _; exact (kop_action Ccring false n k' ts' H U Ds v j E2 G2)].
  rewrite (op_apply_vec false n H U Ds (@gate_action Ccring false n k ts v) (@op_apply Ccring false n G T Cs v)); [|intros; apply G2, I2, in_or_app; now left|exact Hi|intros j _; exact (kop_action Ccring false n k ts G T Cs v j E1 G1)].
  assert (L1 : forall q, In q (T ++ Cs) -> (q < n)%N) by (intros q Hq; now apply G1, I1).
  assert (L2 : forall q, In q (U ++ Ds) -> (q < n)%N) by (intros q Hq; now apply G2, I2).
  assert (X : (length T = 1%nat /\ diagonal G) \/ forall t, In t T -> ~ In t (U ++ Ds)).
  { assert (Y : forall l, incl l T -> (length T = 1%nat /\ diagonal G) \/ forall t, In t l -> ~ In t (U ++ Ds)).
    { induction l as [|t l IH]; intros Hl; [right; intros t []|]. destruct IH as [IH|IH]; [intros x Hx; apply Hl; now right|now left|].
      destruct (in_dec N.eq_dec t (U ++ Ds)) as [Hi'|Hi']; [|right; intros x [<-|Hx]; auto].
      assert (Ht : In t T) by (apply Hl; now left). destruct (kop_keeps n k ts G1 G T Cs t E1) as [K|K]; [apply Hd; [apply I1, in_or_app; now left|now apply I2]|contradiction|now left]. }
    apply (Y T). intros x Hx; exact Hx. }
  assert (X' : (length U = 1%nat /\ diagonal H) \/ forall t, In t U -> ~ In t (T ++ Cs)).
  { assert (Y : forall l, incl l U -> (length U = 1%nat /\ diagonal H) \/ forall t, In t l -> ~ In t (T ++ Cs)).
    { induction l as [|t l IH]; intros Hl; [right; intros t []|]. destruct IH as [IH|IH]; [intros x Hx; apply Hl; now right|now left|].
      destruct (in_dec N.eq_dec t (T ++ Cs)) as [Hi'|Hi']; [|right; intros x [<-|Hx]; auto].
      assert (Ht : In t U) by (apply Hl; now left). destruct (kop_keeps n k' ts' G2 H U Ds t E2) as [K|K]; [apply Hd; [now apply I1|apply I2, in_or_app; now left]|contradiction|now left]. }
    apply (Y U). intros x Hx; exact Hx. }
  destruct X as [(X1 & X2)|X].
  - now apply phase_swap.
  - destruct X' as [(X1 & X2)|X']; [symmetry; apply phase_swap; auto|]. apply op_apply_swap3; auto.
Qed.
End Shared.

(** ** Bits *)
Lemma put_all_other l : forall f b, ~ In b (map fst l) -> put_all l f b = f b.
Proof.
  induction l as [|[x y] l IH]; intros f b Hb; [reflexivity|]. cbn. rewrite IH by (intros H; apply Hb; now right).
  destruct (Nat.eqb b x) eqn:E; [|reflexivity]. apply Nat.eqb_eq in E. subst. exfalso. apply Hb. now left.
Qed.
Lemma recorded_other st os f b : ~ In b (match st with Some bs => bs | None => [] end) -> recorded st os f b = f b.
Proof.
  destruct st as [bs|]; [|reflexivity]. intros H. apply put_all_other. intros Hb. apply H. clear -Hb.
  apply in_map_iff in Hb. destruct Hb as ([x y] & <- & Hb). now apply in_combine_l in Hb.
Qed.
Lemma put_all_in l : forall f g b, In b (map fst l) -> put_all l f b = put_all l g b.
Proof.
  induction l as [|[x y] l IH]; intros f g b Hb; [destruct Hb|]. cbn.
  destruct (in_dec Nat.eq_dec b (map fst l)) as [Hi|Hi]; [now apply IH|].
  rewrite !put_all_other by exact Hi. destruct Hb as [<-|Hb]; [cbn; now rewrite Nat.eqb_refl|contradiction].
Qed.
Lemma recorded_swap st os st' os' f b : (forall b, In b (match st with Some bs => bs | None => [] end) -> ~ In b (match st' with Some bs => bs | None => [] end)) ->
  recorded st os (recorded st' os' f) b = recorded st' os' (recorded st os f) b.
Proof.
  intros H. destruct st as [bs|]; [|reflexivity]. destruct st' as [bs'|]; [|reflexivity].
  unfold recorded. fold (put_all (combine bs os)) (put_all (combine bs' os')).
  destruct (in_dec Nat.eq_dec b (map fst (combine bs os))) as [Hi|Hi].
  - assert (Hb : ~ In b (map fst (combine bs' os'))).
    { intros Hj. apply in_map_iff in Hi, Hj. destruct Hi as ([x y] & <- & Hi), Hj as ([x' y'] & E & Hj). cbn in E. subst x'.
      apply in_combine_l in Hi, Hj. exact (H x Hi Hj). }
    rewrite (put_all_other (combine bs' os')) by exact Hb. now apply put_all_in.
  - rewrite (put_all_other (combine bs os)) by exact Hi.
    destruct (in_dec Nat.eq_dec b (map fst (combine bs' os'))) as [Hj|Hj]; [now apply put_all_in|]. rewrite !(put_all_other (combine bs' os')) by exact Hj. now rewrite put_all_other by exact Hi.
Qed.
Lemma some_zero_other f g l : (forall b, In b l -> g b = f b) -> some_zero f l -> some_zero g l.
Proof. intros H (b & Hb & E). exists b. split; [exact Hb|]. now rewrite H. Qed.

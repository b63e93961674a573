(** Gates that keep a qubit are the gates that never change the probability of its outcomes. *)
From Coq Require Import List NArith Arith Bool Lia Reals Lra Permutation.
From Verif Require Import Py CRing Cplx KernelModel KernelSpec KernelBits KernelProofs KernelProofs2 SimModel SimSpec SimReal SimProofs SimProofs2 SimProofs3 SimProofs4 MeasureSpec SimProofs7
  UnitarySpec CallSpec SampleSpec SampleProofs BranchSpec BranchProofs BranchProofs2 GateModel GateProofs2 RewriteProofs2 OrderSpec OrderProofs OrderProofs2 ConeSpec.
Import ListNotations.
Local Open Scope R_scope.

Section Keep.
Variable n : N.
Notation qb := (qbit false n).

Lemma qset_same i q b : qb (qset false n i q b) q = b.
Proof. unfold qbit. rewrite qset_testbit, N.eqb_refl. reflexivity. Qed.
Lemma qset_other i q b t : (q < n)%N -> (t < n)%N -> t <> q -> qb (qset false n i q b) t = qb i t.
Proof. intros Hq Ht H. unfold qbit. rewrite qset_testbit. destruct (_ =? _)%N eqn:E; [|reflexivity]. apply N.eqb_eq in E. apply bitpos_inj in E; auto. congruence. Qed.
Lemma qset_below i q b : (q < n)%N -> (i < 2 ^ n)%N -> (qset false n i q b < 2 ^ n)%N.
Proof. intros Hq Hi. pose proof (write_lt false n [q] i (N.b2n b)) as H. cbn [write] in H. assert (E : N.odd (N.b2n b) = b) by now destruct b. rewrite E in H. apply H; [intros x [<-|[]]; exact Hq|exact Hi]. Qed.

(** A basis state in which exactly the qubits of a list are 1. *)
Lemma index_of l : (forall q, In q l -> (q < n)%N) -> exists i, (i < 2 ^ n)%N /\ forall q, (q < n)%N -> (qb i q = true <-> In q l).
Proof.
  induction l as [|x l IH]; intros Hl.
  - exists 0%N. split; [apply N.neq_0_lt_0, N.pow_nonzero; discriminate|]. intros q Hq. unfold qbit. rewrite N.bits_0. split; [discriminate|intros []].
  - destruct IH as (i & Hi & Hb); [intros; apply Hl; now right|]. assert (Hx : (x < n)%N) by (apply Hl; now left). exists (qset false n i x true). split; [now apply qset_below|].
    intros q Hq. destruct (N.eq_dec q x) as [->|Hne]; [rewrite qset_same; cbn; tauto|]. rewrite qset_other by auto. rewrite Hb by exact Hq. cbn. split; [auto|intros [E|H]; [congruence|exact H]].
Qed.

Definition ones (t : N) (b : bool) : N -> C := fun i => if Bool.eqb (qb i t) b then C0 else C1.
Lemma ones_prob t b : prob false n t b (ones t b) = 0.
Proof.
  rewrite prob_if. rewrite (Rsum_ext _ _ (fun _ => 0)); [generalize (Nrange (2 ^ n)); intros l; unfold Rsum; induction l as [|a l IH]; cbn; [reflexivity|rewrite IH; ring]|].
  intros i _. unfold ones. destruct (Bool.eqb _ b); [unfold Cnorm2, C0, Re, Im; cbn; ring|reflexivity].
Qed.
Lemma prob_zero t b v i : prob false n t b v = 0 -> (i < 2 ^ n)%N -> qb i t = b -> v i = C0.
Proof.
  intros H Hi Hb. apply Cnorm2_zero. unfold prob in H. refine (Rsum_zero _ _ _ H i _); [intros; apply Cnorm2_pos|]. apply filter_In. split; [now apply In_Nrange|]. rewrite Hb. apply eqb_reflx.
Qed.

Lemma one_keeps G t Cs : NoDup (t :: Cs) -> (forall q, In q (t :: Cs) -> (q < n)%N) ->
  (forall v b, prob false n t b (@op_apply Ccring false n G [t] Cs v) = prob false n t b v) -> diagonal G.
Proof.
  intros Hn Hl H. assert (Ht : (t < n)%N) by (apply Hl; now left). assert (Hc : ~ In t Cs) by (now inversion Hn).
  assert (X : forall b : bool, G (N.b2n b) (N.b2n (negb b)) = C0).
  { intros b. destruct (index_of (if b then t :: Cs else Cs)) as (j & Hj & Hb); [intros q Hq; apply Hl; destruct b; [exact Hq|now right]|].
    assert (Bt : qb j t = b). { destruct b; [apply Hb; [exact Ht|now left]|]. destruct (qb j t) eqn:E; [|reflexivity]. apply Hb in E; [contradiction|exact Ht]. }
    assert (F : forallb (qb j) Cs = true). { apply forallb_forall. intros q Hq. apply Hb; [apply Hl; now right|]. destruct b; [now right|exact Hq]. }
    assert (Z : @op_apply Ccring false n G [t] Cs (ones t b) j = C0) by (apply (prob_zero t b); [rewrite H; apply ones_prob|exact Hj|exact Bt]).
    rewrite <- Z. unfold op_apply. rewrite F. cbn [length]. change (Nrange (2 ^ N.of_nat 1)) with [0%N; 1%N]. unfold sumf. cbn [fold_right read write]. rewrite Bt.
    unfold ones. change (N.odd 0) with false. change (N.odd 1) with true. rewrite !qset_same. destruct b; cbn; ceq; ring. }
  split; [exact (X false)|exact (X true)].
Qed.
Lemma exchange_first i a b : (a < n)%N -> (b < n)%N -> a <> b -> qb (exchange false n i a b) a = qb i b /\ qb (exchange false n i a b) b = qb i a.
Proof.
  intros Ha Hb Hne. unfold exchange. split; repeat (rewrite qset_same || rewrite qset_other by auto); reflexivity.
Qed.

(** [t] is among the qubits of the gate. *)
Theorem keeps_prob k ts t : good_kind Ccring k ts -> good_targets n ts -> unitary_kind k -> In t ts ->
  (keeps k ts t <-> forall v b, prob false n t b (@gate_action Ccring false n k ts v) = prob false n t b v).
Proof.
  intros Hk Hg Hu Ht. assert (Htn : (t < n)%N) by now apply Hg. split.
  { intros K v b. now apply (gate_prob n k ts Hk Hg Hu t b v). }
  intros H. destruct Hg as (Hn & Hl). destruct Hk as (Hm & Hs & Ha).
  destruct k as [mid bits| | | |nc dim m|nq m]; cbn [keeps].
  - exact I.
  - specialize (Ha _ eq_refl). destruct ts as [|a [|b [|? ?]]]; try discriminate Ha. cbn [gate_action] in H.
    assert (Hne : a <> b) by (inversion Hn; subst; cbn in *; intuition congruence).
    destruct (index_of [t]) as (j & Hj & Hb); [intros q [<-|[]]; exact Htn|].
    assert (Z : ones t true (exchange false n j a b) = C0) by (apply (prob_zero t true (fun i => ones t true (exchange false n i a b)) j); [rewrite H; apply ones_prob|exact Hj|apply Hb; [exact Htn|now left]]).
    destruct (exchange_first j a b (Hl a (or_introl eq_refl)) (Hl b (or_intror (or_introl eq_refl))) Hne) as (E1 & E2).
    unfold ones in Z. destruct (Bool.eqb _ true) eqn:E; [|injection Z as Z; lra]. apply eqb_prop in E.
    destruct Ht as [<-|[<-|[]]]; rewrite ?E1, ?E2 in E; apply Hb in E; try (apply Hl; cbn; auto); destruct E as [E|[]]; congruence.
  - specialize (Ha _ eq_refl). destruct ts as [|c [|a [|b [|? ?]]]]; try discriminate Ha. cbn [gate_action] in H. cbn [firstn].
    destruct (N.eq_dec t c) as [->|Htc]; [now left|exfalso].
    assert (Hne : a <> b) by (inversion Hn as [|? ? ? Hn']; inversion Hn'; subst; cbn in *; intuition congruence).
    assert (Hac : a <> c /\ b <> c) by (inversion Hn; subst; cbn in *; intuition congruence). destruct Hac as (Hac & Hbc).
    destruct (index_of [t; c]) as (j & Hj & Hb); [intros q [<-|[<-|[]]]; [exact Htn|apply Hl; now left]|].
    assert (Bc : qb j c = true) by (apply Hb; [apply Hl; now left|right; now left]).
    pose proof (prob_zero t true _ j (eq_trans (H (ones t true) true) (ones_prob t true)) Hj (proj2 (Hb t Htn) (or_introl eq_refl))) as Z. cbn beta in Z. rewrite Bc in Z.
    destruct (exchange_first j a b (Hl a (or_intror (or_introl eq_refl))) (Hl b (or_intror (or_intror (or_introl eq_refl)))) Hne) as (E1 & E2).
    unfold ones in Z. destruct (Bool.eqb _ true) eqn:E; [|injection Z as Z; lra]. apply eqb_prop in E.
    destruct Ht as [<-|[<-|[<-|[]]]]; [congruence| |]; rewrite ?E1, ?E2 in E; apply Hb in E; try (apply Hl; cbn; auto); destruct E as [E|[E|[]]]; congruence.
  - specialize (Ha _ eq_refl). destruct ts as [|c [|d [|x [|? ?]]]]; try discriminate Ha. cbn [firstn].
    destruct Ht as [<-|[<-|[<-|[]]]]; [now left|right; now left|exfalso].
    assert (Hn' : NoDup [x; c; d]) by (apply (Permutation_NoDup (l := [c; d; x])); [|exact Hn]; apply (Permutation_cons_append [c; d] x) || (symmetry; apply (Permutation_cons_append [c; d] x))).
    destruct (one_keeps (SimModel.x_matrix Ccring) x [c; d] Hn') as (D & _).
    + intros q Hq. apply Hl. cbn in *. tauto.
    + intros v b. rewrite <- (H v b). rewrite !prob_if. apply Rsum_ext. intros i Hi. pose proof (kop_action Ccring false n (KCCX Ccring) [c; d; x] (SimModel.x_matrix Ccring) [x] [c; d] v i eq_refl (conj Hn Hl)) as E. rewrite E. reflexivity.
    + injection D as D. lra.
  - specialize (Ha _ eq_refl). destruct Hs as [[-> | ->] _].
    + destruct ts as [|c [|x [|? ?]]]; try discriminate Ha. cbn [gate_action] in H. destruct Ht as [<-|[<-|[]]]; [left; now left|right].
      apply (one_keeps m x [c]); [constructor; [inversion Hn; subst; cbn in *; intuition congruence|repeat constructor; intros []]|intros q Hq; apply Hl; cbn in *; tauto|exact H].
    + destruct ts as [|c [|d [|x [|? ?]]]]; try discriminate Ha. cbn [gate_action] in H. destruct Ht as [<-|[<-|[<-|[]]]]; [left; now left|left; right; now left|right].
      assert (Hn' : NoDup [x; c; d]) by (apply (Permutation_NoDup (l := [c; d; x])); [|exact Hn]; symmetry; apply (Permutation_cons_append [c; d] x)).
      apply (one_keeps m x [c; d]); [exact Hn'|intros q Hq; apply Hl; cbn in *; tauto|exact H].
  - cbn in Hs. subst nq. specialize (Ha _ eq_refl). destruct ts as [|x [|? ?]]; try discriminate Ha. cbn [gate_action] in H. destruct Ht as [<-|[]].
    apply (one_keeps m x []); auto.
Qed.
End Keep.

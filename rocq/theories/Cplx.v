(** Complex numbers as pairs of reals, as a ring with conjugation. *)
From Coq Require Import Reals Lra List NArith Ring.
From Verif Require Import CRing.
Import ListNotations.
Local Open Scope R_scope.

Definition C : Type := (R * R)%type.
Definition Re (z : C) : R := fst z.
Definition Im (z : C) : R := snd z.
Definition C0 : C := (0, 0).
Definition C1 : C := (1, 0).
Definition Ci : C := (0, 1).
Definition Cadd (a b : C) : C := (Re a + Re b, Im a + Im b).
Definition Cmul (a b : C) : C := (Re a * Re b - Im a * Im b, Re a * Im b + Im a * Re b).
Definition Copp (a : C) : C := (- Re a, - Im a).
Definition Csub (a b : C) : C := (Re a - Re b, Im a - Im b).
Definition Cconj (a : C) : C := (Re a, - Im a).
Definition RtoC (x : R) : C := (x, 0).
(** [np.exp(1j * t)] *)
Definition Cexp (t : R) : C := (cos t, sin t).

Lemma C_eq (a b : C) : Re a = Re b -> Im a = Im b -> a = b.
Proof. destruct a, b. unfold Re, Im. simpl. congruence. Qed.

Ltac ceq := apply C_eq; unfold Cadd, Cmul, Copp, Csub, Cconj, RtoC, C0, C1, Ci, Re, Im; simpl.

Lemma C_ring : ring_theory C0 C1 Cadd Cmul Csub Copp eq.
Proof. split; intros; ceq; ring. Qed.

Definition Ccring : cring.
Proof.
  refine (mkCring C C0 C1 Cadd Cmul Csub Copp Cconj C_ring _ _ _);
  intros; ceq; ring.
Defined.

Lemma C_dec (a b : C) : {a = b} + {a <> b}.
Proof.
  destruct a as [a1 a2], b as [b1 b2].
  destruct (Req_EM_T a1 b1) as [->|H]; [|right; congruence].
  destruct (Req_EM_T a2 b2) as [->|H]; [left; reflexivity|right; congruence].
Qed.

Lemma rnorm_C (z : C) : @rnorm Ccring z = (Re z * Re z + Im z * Im z, 0).
Proof. unfold rnorm. simpl. ceq; ring. Qed.

(** Squared modulus as a real number. *)
Definition Cnorm2 (z : C) : R := Re z * Re z + Im z * Im z.

Lemma Cnorm2_pos z : 0 <= Cnorm2 z.
Proof. unfold Cnorm2. nra. Qed.

Lemma Cnorm2_zero z : Cnorm2 z = 0 -> z = C0.
Proof. unfold Cnorm2. intros H. apply C_eq; unfold C0, Re, Im in *; simpl; nra. Qed.

(** Sums of reals *)
Definition Rsum {I} (l : list I) (f : I -> R) : R := fold_right (fun i acc => f i + acc) 0 l.

Lemma Rsum_nonneg {I} (l : list I) f : (forall i, In i l -> 0 <= f i) -> 0 <= Rsum l f.
Proof.
  induction l as [|i l IH]; intros H; simpl; [lra|].
  pose proof (H i (or_introl eq_refl)). assert (0 <= Rsum l f) by (apply IH; intros; apply H; now right). lra.
Qed.

Lemma Rsum_zero {I} (l : list I) f : (forall i, In i l -> 0 <= f i) -> Rsum l f = 0 ->
  forall i, In i l -> f i = 0.
Proof.
  induction l as [|j l IH]; intros H E i Hi; [destruct Hi|]. simpl in E.
  pose proof (H j (or_introl eq_refl)).
  assert (0 <= Rsum l f) by (apply Rsum_nonneg; intros; apply H; now right).
  destruct Hi as [->|Hi]; [lra|]. apply IH; auto; [intros; apply H; now right|lra].
Qed.

Lemma sumf_real {I} (l : list I) (f : I -> C) (g : I -> R) :
  (forall i, In i l -> f i = RtoC (g i)) -> @sumf Ccring I l f = RtoC (Rsum l g).
Proof.
  induction l as [|i l IH]; intros H; simpl; [reflexivity|].
  rewrite H by now left. rewrite IH by (intros; apply H; now right). ceq; ring.
Qed.

Lemma Rsum_ext {I} (l : list I) f g : (forall i, In i l -> f i = g i) -> Rsum l f = Rsum l g.
Proof.
  induction l as [|i l IH]; intros H; simpl; [reflexivity|]. rewrite H by now left.
  rewrite IH; [reflexivity|]. intros; apply H; now right.
Qed.

Lemma Rsum_add {I} (l : list I) f g : Rsum l (fun i => f i + g i) = Rsum l f + Rsum l g.
Proof. induction l as [|i l IH]; simpl; [ring|]. rewrite IH. ring. Qed.

Lemma Rsum_scale {I} (l : list I) f a : Rsum l (fun i => a * f i) = a * Rsum l f.
Proof. induction l as [|i l IH]; simpl; [ring|]. rewrite IH. ring. Qed.

Lemma Rsum_swap {I J} (l : list I) (m : list J) f :
  Rsum l (fun i => Rsum m (fun j => f i j)) = Rsum m (fun j => Rsum l (fun i => f i j)).
Proof.
  induction l as [|i l IH]; simpl.
  - induction m as [|j m IHm]; simpl; [reflexivity|]. rewrite <- IHm. ring.
  - rewrite IH. now rewrite <- Rsum_add.
Qed.

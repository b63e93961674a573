(** Commutative rings with a conjugation, and finite sums in them.  The amplitudes of the simulator
    are elements of such a ring: the complex numbers (file Cplx.v) are one instance. *)
From Coq Require Import List NArith ZArith Ring Permutation Lia.
Import ListNotations.

Record cring := mkCring {
  car :> Type;
  r0 : car; r1 : car;
  radd : car -> car -> car; rmul : car -> car -> car; rsub : car -> car -> car;
  ropp : car -> car;
  rconj : car -> car;
  r_theory : ring_theory r0 r1 radd rmul rsub ropp eq;
  rconj_add : forall a b, rconj (radd a b) = radd (rconj a) (rconj b);
  rconj_mul : forall a b, rconj (rmul a b) = rmul (rconj a) (rconj b);
  rconj_inv : forall a, rconj (rconj a) = a
}.

Arguments r0 {c}. Arguments r1 {c}. Arguments radd {c}. Arguments rmul {c}. Arguments rsub {c}.
Arguments ropp {c}. Arguments rconj {c}.

Declare Scope cring_scope.
Delimit Scope cring_scope with K.
Notation "0" := r0 : cring_scope.
Notation "1" := r1 : cring_scope.
Infix "+" := radd : cring_scope.
Infix "*" := rmul : cring_scope.
Infix "-" := rsub : cring_scope.
Notation "- x" := (ropp x) : cring_scope.

(** Square modulus. *)
Definition rnorm {K : cring} (a : K) : K := rmul a (rconj a).

Definition sumf {K : cring} {I} (l : list I) (f : I -> K) : K :=
  fold_right (fun i acc => radd (f i) acc) r0 l.

(** [0, 1, ..., m-1] *)
Definition Nrange (m : N) : list N := map N.of_nat (seq 0 (N.to_nat m)).

Section Sums.
Variable K : cring.
Add Ring Kring : (r_theory K).
Local Open Scope cring_scope.

Lemma rconj_0 : rconj (0 : K) = 0.
Proof.
  assert (H : rconj (0 : K) + rconj 0 = rconj 0) by (rewrite <- rconj_add; f_equal; ring).
  replace (rconj (0 : K)) with (rconj (0 : K) + rconj 0 - rconj 0) at 1 by ring.
  rewrite H. ring.
Qed.

Lemma rconj_1 : rconj (1 : K) = 1.
Proof.
  assert (H : rconj (1 : K) * 1 = 1).
  { rewrite <- (rconj_inv K (1 : K)) at 2. rewrite <- rconj_mul.
    replace (1 * rconj (1 : K)) with (rconj (1 : K)) by ring. apply rconj_inv. }
  rewrite <- H at 2. ring.
Qed.

Lemma rconj_opp (a : K) : rconj (- a) = - rconj a.
Proof.
  assert (H : rconj a + rconj (- a) = 0).
  { rewrite <- rconj_add. replace (a + - a) with (0 : K) by ring. apply rconj_0. }
  replace (- rconj a) with (- rconj a + 0) by ring. rewrite <- H. ring.
Qed.

Lemma rconj_sub (a b : K) : rconj (a - b) = rconj a - rconj b.
Proof.
  replace (a - b) with (a + - b) by ring. rewrite rconj_add, rconj_opp. ring.
Qed.

Context {I : Type}.
Implicit Types (l : list I) (f g : I -> K).

Lemma sumf_nil f : sumf [] f = 0. Proof. reflexivity. Qed.
Lemma sumf_cons i l f : sumf (i :: l) f = f i + sumf l f. Proof. reflexivity. Qed.

Lemma sumf_ext l f g : (forall i, In i l -> f i = g i) -> sumf l f = sumf l g.
Proof.
  induction l as [|i l IH]; intros H; simpl; [reflexivity|]. rewrite (H i) by now left.
  rewrite IH; [reflexivity|]. intros j Hj. apply H. now right.
Qed.

Lemma sumf_app l1 l2 f : sumf (l1 ++ l2) f = sumf l1 f + sumf l2 f.
Proof. induction l1 as [|i l IH]; simpl; [ring|]. rewrite IH. ring. Qed.

Lemma sumf_perm l1 l2 f : Permutation l1 l2 -> sumf l1 f = sumf l2 f.
Proof. induction 1; simpl; try congruence; ring. Qed.

Lemma sumf_add l f g : sumf l (fun i => f i + g i) = sumf l f + sumf l g.
Proof. induction l as [|i l IH]; simpl; [ring|]. rewrite IH. ring. Qed.

Lemma sumf_scale l f (a : K) : sumf l (fun i => a * f i) = a * sumf l f.
Proof. induction l as [|i l IH]; simpl; [ring|]. rewrite IH. ring. Qed.

Lemma sumf_scale_r l f (a : K) : sumf l (fun i => f i * a) = sumf l f * a.
Proof. induction l as [|i l IH]; simpl; [ring|]. rewrite IH. ring. Qed.

Lemma sumf_zero l f : (forall i, In i l -> f i = 0) -> sumf l f = 0.
Proof.
  induction l as [|i l IH]; intros H; simpl; [reflexivity|]. rewrite (H i) by now left.
  rewrite IH; [ring|]. intros j Hj. apply H. now right.
Qed.

Lemma sumf_conj l f : rconj (sumf l f) = sumf l (fun i => rconj (f i)).
Proof. induction l as [|i l IH]; simpl; [apply rconj_0|]. now rewrite rconj_add, IH. Qed.

Lemma sumf_single l f (i : I) : NoDup l -> In i l -> (forall j, In j l -> j <> i -> f j = 0) ->
  sumf l f = f i.
Proof.
  induction 1 as [|j l Hj Hl IH]; intros Hi H0; [destruct Hi|]. simpl.
  destruct Hi as [->|Hi].
  - rewrite sumf_zero; [ring|]. intros k Hk. apply H0; [now right|]. intros ->. contradiction.
  - rewrite (H0 j); [|now left|intros ->; contradiction].
    rewrite IH; [ring|auto|]. intros k Hk. apply H0. now right.
Qed.

Lemma sumf_filter l (p : I -> bool) f :
  sumf l f = sumf (filter p l) f + sumf (filter (fun i => negb (p i)) l) f.
Proof. induction l as [|i l IH]; simpl; [ring|]. destruct (p i); simpl; rewrite IH; ring. Qed.

Lemma sumf_if l (p : I -> bool) f :
  sumf (filter p l) f = sumf l (fun i => if p i then f i else 0).
Proof. induction l as [|i l IH]; simpl; [reflexivity|]. destruct (p i); simpl; rewrite IH; ring. Qed.
End Sums.

Lemma sumf_map {K : cring} {I J} (l : list J) (h : J -> I) (f : I -> K) :
  sumf (map h l) f = sumf l (fun j => f (h j)).
Proof. induction l as [|j l IH]; simpl; [reflexivity|]. now rewrite IH. Qed.

Lemma sumf_flat_map {K : cring} {I J} (l : list J) (h : J -> list I) (f : I -> K) :
  sumf (flat_map h l) f = sumf l (fun j => sumf (h j) f).
Proof. induction l as [|j l IH]; simpl; [reflexivity|]. now rewrite sumf_app, IH. Qed.

Lemma sumf_swap {K : cring} {I J} (l : list I) (m : list J) (f : I -> J -> K) :
  sumf l (fun i => sumf m (f i)) = sumf m (fun j => sumf l (fun i => f i j)).
Proof.
  induction l as [|i l IH]; simpl.
  - symmetry. now apply sumf_zero.
  - rewrite IH. symmetry. apply (sumf_add K m (f i)).
Qed.

Lemma In_Nrange m i : In i (Nrange m) <-> (i < m)%N.
Proof.
  unfold Nrange. rewrite in_map_iff. split.
  - intros (k & <- & H). apply in_seq in H. lia.
  - intros H. exists (N.to_nat i). split; [lia|]. apply in_seq. lia.
Qed.

Lemma NoDup_Nrange m : NoDup (Nrange m).
Proof.
  unfold Nrange. generalize 0%nat. induction (N.to_nat m) as [|k IH]; intros a; simpl; constructor.
  - intros H. apply in_map_iff in H. destruct H as (j & E & Hj). apply in_seq in Hj. lia.
  - apply IH.
Qed.

Lemma Nrange_length m : length (Nrange m) = N.to_nat m.
Proof. unfold Nrange. now rewrite map_length, seq_length. Qed.

(** The integers, with trivial conjugation: a ring in which examples compute. *)
Definition Zcring : cring.
Proof.
  refine (mkCring Z 0%Z 1%Z Z.add Z.mul Z.sub Z.opp (fun a => a) InitialRing.Zth _ _ _); reflexivity.
Defined.

(** Gaussian integers: pairs (real part, imaginary part). *)
Definition Gcring : cring.
Proof.
  refine (mkCring (Z * Z) (0, 0)%Z (1, 0)%Z
     (fun a b => (fst a + fst b, snd a + snd b)%Z)
     (fun a b => (fst a * fst b - snd a * snd b, fst a * snd b + snd a * fst b)%Z)
     (fun a b => (fst a - fst b, snd a - snd b)%Z)
     (fun a => (- fst a, - snd a)%Z)
     (fun a => (fst a, - snd a)%Z) _ _ _ _).
  - constructor; intros; repeat match goal with x : (Z * Z)%type |- _ => destruct x end;
      cbn [fst snd]; try (apply f_equal2; ring); reflexivity.
  - intros [a b] [c d]; cbn [fst snd]; apply f_equal2; ring.
  - intros [a b] [c d]; cbn [fst snd]; apply f_equal2; ring.
  - intros [a b]; cbn [fst snd]; apply f_equal2; ring.
Defined.

(** Identities between the matrices of the one-qubit gates. *)
From Coq Require Import List ZArith NArith Bool Lia Reals Lra.
From Verif Require Import Py CRing Cplx GateModel GateSpec GateProofs.
Import ListNotations.
Local Open Scope R_scope.

Ltac mats := intros i j Hi Hj;
  destruct (two_cases i Hi) as [-> | ->], (two_cases j Hj) as [-> | ->];
  unfold times, scaled, plus, one, matrix1; csimp.

Lemma pauli_square p : same (times (matrix1 (pauli p)) (matrix1 (pauli p))) one.
Proof. destruct p; mats; f_equal; ring. Qed.
Lemma pauli_next p : same (times (matrix1 (pauli p)) (matrix1 (pauli (next p)))) (scaled Ci (matrix1 (pauli (next (next p))))).
Proof. destruct p; mats; f_equal; ring. Qed.
Lemma pauli_back p : same (times (matrix1 (pauli (next p))) (matrix1 (pauli p))) (scaled (Copp Ci) (matrix1 (pauli (next (next p))))).
Proof. destruct p; mats; f_equal; ring. Qed.
Lemma rotation_pauli p theta : same (matrix1 (rotation p theta))
  (plus (scaled (RtoC (cos (theta / 2))) one) (scaled (Cmul (Copp Ci) (RtoC (sin (theta / 2)))) (matrix1 (pauli p)))).
Proof. destruct p; mats; norm_half; f_equal; ring. Qed.
Lemma rotation_add p a b : same (times (matrix1 (rotation p a)) (matrix1 (rotation p b))) (matrix1 (rotation p (a + b))).
Proof.
  assert (E : (a + b) / 2 = a / 2 + b / 2) by field.
  assert (E' : - (a + b) / 2 = - a / 2 + - b / 2) by field.
  destruct p; mats; rewrite ?E, ?E', ?cos_plus, ?sin_plus; f_equal; ring.
Qed.
Lemma rotation_zero p : same (matrix1 (rotation p 0)) one.
Proof.
  assert (E : 0 / 2 = 0) by field. assert (E' : - 0 / 2 = 0) by field.
  destruct p; mats; rewrite ?E, ?E', ?cos_0, ?sin_0; f_equal; ring.
Qed.
Lemma x_flips : forall v : N -> C, forall i, (i < 2)%N ->
  Cadd (Cmul (matrix1 GX i 0) (v 0%N)) (Cmul (matrix1 GX i 1) (v 1%N)) = v (1 - i)%N.
Proof.
  intros v i Hi. destruct (two_cases i Hi) as [-> | ->]; unfold matrix1; csimp; simpl;
  [destruct (v 1%N)|destruct (v 0%N)]; simpl; f_equal; ring.
Qed.
Lemma z_signs : forall v : N -> C, forall i, (i < 2)%N ->
  Cadd (Cmul (matrix1 GZ i 0) (v 0%N)) (Cmul (matrix1 GZ i 1) (v 1%N)) = if (i =? 0)%N then v i else Copp (v i).
Proof.
  intros v i Hi. destruct (two_cases i Hi) as [-> | ->]; unfold matrix1; csimp; simpl;
  [destruct (v 0%N)|destruct (v 1%N)]; simpl; f_equal; ring.
Qed.
Lemma hadamard_square : same (times (matrix1 GHadamard) (matrix1 GHadamard)) one.
Proof.
  assert (E : sqrt 2 * sqrt 2 = 2) by (apply sqrt_sqrt; lra).
  mats; f_equal; try ring; nra.
Qed.
Lemma hadamard_sum : same (matrix1 GHadamard) (scaled (RtoC (sqrt 2 / 2)) (plus (matrix1 GX) (matrix1 GZ))).
Proof. mats; f_equal; ring. Qed.
Lemma s_rotation : same (matrix1 GS) (scaled (Cexp (PI / 4)) (matrix1 (GRZ (PI / 2)))).
Proof.
  assert (E : - (PI / 2) / 2 = - (PI / 4)) by field. assert (E' : PI / 2 / 2 = PI / 4) by field.
  mats; rewrite ?E, ?E', ?cos_neg, ?sin_neg; try (f_equal; ring).
  - pose proof (sc (PI / 4)). f_equal; [lra|ring].
  - rewrite cos_PI4, sin_PI4. assert (E2 : sqrt 2 * sqrt 2 = 2) by (apply sqrt_sqrt; lra).
    assert (sqrt 2 <> 0) by (intros H; rewrite H in E2; lra).
    f_equal; [ring|]. assert (E3 : (1 / sqrt 2 * (1 / sqrt 2)) = 1 / 2).
    { transitivity (1 / (sqrt 2 * sqrt 2)); [field; auto|]. rewrite E2. reflexivity. }
    lra.
Qed.
Lemma t_rotation : same (matrix1 GT) (scaled (Cexp (PI / 8)) (matrix1 (GRZ (PI / 4)))).
Proof.
  assert (E : - (PI / 4) / 2 = - (PI / 8)) by field. assert (E' : PI / 4 / 2 = PI / 8) by field.
  assert (E4 : PI / 4 = PI / 8 + PI / 8) by field.
  mats; rewrite ?E, ?E', ?cos_neg, ?sin_neg; try (f_equal; ring).
  - pose proof (sc (PI / 8)). f_equal; [lra|ring].
  - rewrite E4, cos_plus, sin_plus. f_equal; ring.
Qed.
Lemma t_square : same (times (matrix1 GT) (matrix1 GT)) (matrix1 GS).
Proof.
  mats; try (f_equal; ring). f_equal.
  - assert (H : cos (PI / 4 + PI / 4) = 0) by (replace (PI / 4 + PI / 4) with (PI / 2) by field; apply cos_PI2).
    rewrite cos_plus in H. lra.
  - assert (H : sin (PI / 4 + PI / 4) = 1) by (replace (PI / 4 + PI / 4) with (PI / 2) by field; apply sin_PI2).
    rewrite sin_plus in H. lra.
Qed.
Lemma s_square : same (times (matrix1 GS) (matrix1 GS)) (matrix1 GZ).
Proof. mats; f_equal; ring. Qed.
Lemma identity_one : same (matrix1 GIdentity) one.
Proof. mats; reflexivity. Qed.

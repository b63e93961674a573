(** Property C62: the one-qubit gates are the Pauli matrices, their square roots and the rotations they
    generate. *)
From Coq Require Import List ZArith NArith Bool Lia Reals Lra.
From Verif Require Import Py CRing Cplx GateModel GateSpec GateProofs GateProofs4.
Local Open Scope R_scope.

(** X exchanges the two amplitudes, Z negates the second, Y completes the algebra: in cyclic order, the
    product of two is i times the third, in the opposite order -i times, and every square is 1. *)
Theorem C62_pauli :
  (forall (v : N -> C) i, (i < 2)%N ->
     Cadd (Cmul (matrix1 GX i 0) (v 0%N)) (Cmul (matrix1 GX i 1) (v 1%N)) = v (1 - i)%N) /\
  (forall (v : N -> C) i, (i < 2)%N ->
     Cadd (Cmul (matrix1 GZ i 0) (v 0%N)) (Cmul (matrix1 GZ i 1) (v 1%N)) = if (i =? 0)%N then v i else Copp (v i)) /\
  (forall p, same (times (matrix1 (pauli p)) (matrix1 (pauli p))) one) /\
  (forall p, same (times (matrix1 (pauli p)) (matrix1 (pauli (next p)))) (scaled Ci (matrix1 (pauli (next (next p)))))) /\
  (forall p, same (times (matrix1 (pauli (next p))) (matrix1 (pauli p))) (scaled (Copp Ci) (matrix1 (pauli (next (next p)))))).
Proof. exact (conj x_flips (conj z_signs (conj pauli_square (conj pauli_next pauli_back)))). Qed.
Print Assumptions C62_pauli.

(** RX, RY and RZ: exp(-i theta P / 2) = cos(theta/2) - i sin(theta/2) P. *)
Theorem C62_rotations :
  forall p theta, same (matrix1 (rotation p theta))
    (plus (scaled (RtoC (cos (theta / 2))) one)
          (scaled (Cmul (Copp Ci) (RtoC (sin (theta / 2)))) (matrix1 (pauli p)))).
Proof. exact rotation_pauli. Qed.
Print Assumptions C62_rotations.

(** Rotations around one axis add up. *)
Theorem C62_rotations_compose :
  forall p a b, same (times (matrix1 (rotation p a)) (matrix1 (rotation p b))) (matrix1 (rotation p (a + b))) /\
    same (matrix1 (rotation p 0)) one.
Proof. exact (fun p a b => conj (rotation_add p a b) (rotation_zero p)). Qed.
Print Assumptions C62_rotations_compose.

(** Hadamard is the normalised sum of X and Z and its own inverse; T squared is S, S squared is Z, and both
    are rotations around Z up to a phase. *)
Theorem C62_roots :
  same (matrix1 GIdentity) one /\
  same (matrix1 GHadamard) (scaled (RtoC (sqrt 2 / 2)) (plus (matrix1 GX) (matrix1 GZ))) /\
  same (times (matrix1 GHadamard) (matrix1 GHadamard)) one /\
  same (times (matrix1 GS) (matrix1 GS)) (matrix1 GZ) /\
  same (times (matrix1 GT) (matrix1 GT)) (matrix1 GS) /\
  same (matrix1 GS) (scaled (Cexp (PI / 4)) (matrix1 (GRZ (PI / 2)))) /\
  same (matrix1 GT) (scaled (Cexp (PI / 8)) (matrix1 (GRZ (PI / 4)))).
Proof.
  exact (conj identity_one (conj hadamard_sum (conj hadamard_square (conj s_square (conj t_square (conj s_rotation t_rotation)))))).
Qed.
Print Assumptions C62_roots.

(** RX(pi) is X up to the phase -i. *)
Example C62_example : matrix1 (rotation AxX PI) 0 1 = Copp Ci /\ matrix1 (pauli AxY) 1 0 = Ci.
Proof.
  split; [|reflexivity]. unfold rotation, matrix1. csimp. rewrite sin_PI2. f_equal; ring.
Qed.

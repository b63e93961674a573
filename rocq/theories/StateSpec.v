(** Specifications for the state of a circuit. *)
From Coq Require Import List NArith Bool Reals.
From Verif Require Import Py CRing Cplx KernelSpec StateModel.
Import ListNotations.
Local Open Scope R_scope.

(** Vectors and square matrices for [n] qubits. *)
Definition right_shape (n : N) (a : arr) : Prop := shape a = [2 ^ n]%N \/ shape a = [2 ^ n; 2 ^ n]%N.

(** A state vector or a density matrix is present. *)
Definition is_set (s : cst) : Prop := st_state s <> None \/ st_dm s <> None.

(** The attributes after storing an array: vectors as state, matrices as density matrix. *)
Definition store (a : arr) : cst := if Nat.eqb (length (shape a)) 1 then mkCst (Some a) None else mkCst None (Some a).

(** [a] is the matrix with entries v[r] * conj(v[c]). *)
Definition is_projector (n : N) (v : N -> C) (a : arr) : Prop :=
  shape a = [2 ^ n; 2 ^ n]%N /\
  forall r c, (r < 2 ^ n)%N -> (c < 2 ^ n)%N -> data a (rowcol n r c) = Cmul (v r) (Cconj (v c)).

(** Density matrices: hermitian, trace 1, positive semidefinite. *)
Definition is_density (n : N) (a : arr) : Prop :=
  shape a = [2 ^ n; 2 ^ n]%N /\
  (forall r c, (r < 2 ^ n)%N -> (c < 2 ^ n)%N -> data a (rowcol n r c) = Cconj (data a (rowcol n c r))) /\
  @sumf Ccring N (Nrange (2 ^ n)) (fun r => data a (rowcol n r r)) = C1 /\
  forall x : N -> C,
    0 <= Re (@sumf Ccring N (Nrange (2 ^ n)) (fun r =>
               @sumf Ccring N (Nrange (2 ^ n)) (fun c => Cmul (Cconj (x r)) (Cmul (data a (rowcol n r c)) (x c))))).

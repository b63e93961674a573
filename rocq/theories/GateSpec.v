(** Vocabulary for identities between matrices of one-qubit gates. *)
From Coq Require Import NArith Reals.
From Verif Require Import Cplx GateModel.
Local Open Scope R_scope.

(** Products, multiples and sums of 2 by 2 matrices, and their equality. *)
Definition times (A B : cmat) : cmat := fun i j => Cadd (Cmul (A i 0%N) (B 0%N j)) (Cmul (A i 1%N) (B 1%N j)).
Definition scaled (z : C) (A : cmat) : cmat := fun i j => Cmul z (A i j).
Definition plus (A B : cmat) : cmat := fun i j => Cadd (A i j) (B i j).
Definition same (A B : cmat) : Prop := forall i j, (i < 2)%N -> (j < 2)%N -> A i j = B i j.
Definition one : cmat := fun i j => if (i =? j)%N then C1 else C0.

(** The rotation by [theta] around the axis of [p]. *)
Inductive axis := AxX | AxY | AxZ.
Definition pauli (p : axis) : gate1 := match p with AxX => GX | AxY => GY | AxZ => GZ end.
Definition rotation (p : axis) (theta : R) : gate1 :=
  match p with AxX => GRX theta | AxY => GRY theta | AxZ => GRZ theta end.
Definition next (p : axis) : axis := match p with AxX => AxY | AxY => AxZ | AxZ => AxX end.

(** Words for equality and hashes of primitives. *)
From Coq Require Import List ZArith String Bool.
From Verif Require Import PrimModel.

Section PrimSpec.
Variable N : Type.

(** Both qubits, both bits or both variables. *)
Definition same_class (p q : prim N) : Prop :=
  match p, q with
  | PQubit _ _ _, PQubit _ _ _ | PBit _ _ _ _, PBit _ _ _ _ | PVariable _ _ _, PVariable _ _ _ => True
  | _, _ => False
  end.
Definition has_id (p : prim N) : Prop := match p with PVariable _ _ _ => False | _ => True end.

(** A relation that is an equivalence. *)
Record equivalence {A} (R : A -> A -> Prop) : Prop := {
  eq_refl_ : forall x, R x x;
  eq_sym_ : forall x y, R x y -> R y x;
  eq_trans_ : forall x y z, R x y -> R y z -> R x z
}.
End PrimSpec.

(** Independent vocabulary for the id-counter properties. *)
From Coq Require Import List Arith.
Import ListNotations.

(** Binomial coefficients. *)
Fixpoint binom (n k : nat) : nat :=
  match k, n with
  | O, _ => 1
  | S _, O => 0
  | S k', S n' => binom n' k' + binom n' k
  end.

(** The number of subsets of an [n]-letter alphabet with at least [l] elements. *)
Definition ids_available (n l : nat) : nat :=
  fold_right plus 0 (map (binom n) (seq l (S n - l))).

(** [s] is obtained from [l] by deleting elements. *)
Inductive subseq {A} : list A -> list A -> Prop :=
| sub_nil : subseq [] []
| sub_skip x s l : subseq s l -> subseq s (x :: l)
| sub_take x s l : subseq s l -> subseq (x :: s) (x :: l).

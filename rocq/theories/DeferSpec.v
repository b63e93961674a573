(** Specification for C82: measurements put later, split and merged. *)
From Coq Require Import List NArith Bool.
From Verif Require Import Py CRing Cplx KernelSpec SimModel SimSpec OrderSpec.
Import ListNotations.

(** A measurement of [qs] into the bits [bs], under the condition [k]; the number names the measurement object. *)
Definition measures (mid : nat) (qs bs k : list nat) : sop Ccring := mkSop Ccring (KMeasure Ccring mid (Some bs)) (Some qs) k.
(** A gate with the matrix [m] on the qubit [t], and the same gate controlled by [q]. *)
Definition acts (m : N -> N -> C) (t : nat) (k : list nat) : sop Ccring := mkSop Ccring (KOther Ccring 1 m) (Some [t]) k.
Definition acts_if (m : N -> N -> C) (q t : nat) (k : list nat) : sop Ccring := mkSop Ccring (KControlled Ccring 1 2 m) (Some [q; t]) k.

(** Changes of a list of operations:
    - independent neighbours are exchanged (two measurements only if [both]);
    - a gate under the condition that a qubit measured just before was 1 becomes a controlled gate before the measurement;
    - two neighbouring measurements under the same condition become one;
    and back, any number of times, anywhere. *)
Inductive remeasured (both : bool) : list (sop Ccring) -> list (sop Ccring) -> Prop :=
| rm_nil : remeasured both [] []
| rm_cons o l l' : remeasured both l l' -> remeasured both (o :: l) (o :: l')
| rm_swap o p l : independent o p -> (is_measure (so_kind Ccring o) = true -> is_measure (so_kind Ccring p) = true -> both = true) ->
    remeasured both (o :: p :: l) (p :: o :: l)
| rm_defer mid q t b m k l : q <> t -> ~ In b k ->
    remeasured both (measures mid [q] [b] k :: acts m t (b :: k) :: l) (acts_if m q t k :: measures mid [q] [b] k :: l)
| rm_merge mid mid1 mid2 qs1 qs2 bs1 bs2 k l : length bs1 = length qs1 -> (forall b, In b bs1 -> ~ In b k) ->
    remeasured both (measures mid1 qs1 bs1 k :: measures mid2 qs2 bs2 k :: l) (measures mid (qs1 ++ qs2) (bs1 ++ bs2) k :: l)
| rm_sym l l' : remeasured both l l' -> remeasured both l' l
| rm_trans l1 l2 l3 : remeasured both l1 l2 -> remeasured both l2 l3 -> remeasured both l1 l3.

(** Specification for C81: operations of a circuit in another order. *)
From Coq Require Import List NArith Bool Permutation.
From Verif Require Import Py CRing Cplx KernelSpec SimModel SimSpec.
Import ListNotations.

(** The bits an operation may write. *)
Definition written (o : sop Ccring) : list nat := match so_kind Ccring o with KMeasure _ _ (Some bs) => bs | _ => [] end.

(** A matrix that multiplies each basis state by a number. *)
Definition diagonal (m : N -> N -> C) : Prop := m 0%N 1%N = C0 /\ m 1%N 0%N = C0.

(** An operation does not change [q], one of the qubits it acts on: a measurement does not (it only picks a part of the
    state), a controlled gate does not change its controls, and a gate with a diagonal matrix changes no qubit. *)
Definition keeps {A} (k : kind Ccring) (qs : list A) (q : A) : Prop :=
  match k with
  | KMeasure _ _ _ => True
  | KSwap _ => False
  | KCSwap _ => In q (firstn 1 qs)
  | KCCX _ => In q (firstn 2 qs)
  | KControlled _ nc _ m => In q (firstn nc qs) \/ diagonal m
  | KOther _ _ m => diagonal m
  end.

(** Both operations keep their common qubits, neither operation writes a bit of the other's condition, no bit is written
    by both. *)
Definition independent (o p : sop Ccring) : Prop :=
  (forall qs qs' q, so_qubits Ccring o = Some qs -> so_qubits Ccring p = Some qs' -> In q qs -> In q qs' -> keeps (so_kind Ccring o) qs q /\ keeps (so_kind Ccring p) qs' q) /\
  (forall b, In b (written o) -> ~ In b (so_cond Ccring p)) /\ (forall b, In b (written p) -> ~ In b (so_cond Ccring o)) /\
  (forall b, In b (written o) -> ~ In b (written p)).

(** One list comes from the other by exchanging neighbours that are independent, any number of times; two measurements
    are exchanged only if [both]. *)
Inductive reordered (both : bool) : list (sop Ccring) -> list (sop Ccring) -> Prop :=
| re_nil : reordered both [] []
| re_cons o l l' : reordered both l l' -> reordered both (o :: l) (o :: l')
| re_swap o p l : independent o p -> (is_measure (so_kind Ccring o) = true -> is_measure (so_kind Ccring p) = true -> both = true) ->
    reordered both (o :: p :: l) (p :: o :: l)
| re_trans l1 l2 l3 : reordered both l1 l2 -> reordered both l2 l3 -> reordered both l1 l3.

(** The same, said of positions: [was] lists names of the operations in the old order, [is] in the new order, [f] gives the
    operation of a name.  Two operations come in another order only if they are independent. *)
Definition before (l : list nat) (i j : nat) : Prop := exists a b d, l = a ++ i :: b ++ j :: d.
Definition rearranged (both : bool) (l l' : list (sop Ccring)) : Prop := exists (f : nat -> sop Ccring) was is,
  l = map f was /\ l' = map f is /\ NoDup was /\ Permutation was is /\
  forall i j, before was i j -> before is j i -> independent (f i) (f j) /\ (is_measure (so_kind Ccring (f i)) = true -> is_measure (so_kind Ccring (f j)) = true -> both = true).

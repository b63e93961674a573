(** Specifications for operations made from circuits. *)
From Coq Require Import List Arith Bool.
From Verif Require Import Py CRing UnitaryModel CustomModel.
Import ListNotations.

Section CustomSpec.
Variable C P : Type.
Notation arg := (arg P).
Notation pcircuit := (pcircuit C P).

(** The variables among parameters, in order. *)
Definition vars (args : list arg) : list nat := concat (map (fun a => match a with Num _ _ => [] | Var _ v => [v] end) args).
(** Objects in the order of their first occurrence, without those in [seen]. *)
Fixpoint firsts (seen ids : list nat) : list nat :=
  match ids with
  | [] => []
  | i :: ids' => if existsb (Nat.eqb i) seen then firsts seen ids' else i :: firsts (i :: seen) ids'
  end.
Definition vars_at (h : list (cop C P)) (i : nat) : list nat := match nth_error h i with Some o => vars (co_args C P o) | None => [] end.
(** The variables of a circuit's operations in order of occurrence; an operation that occurs again counts once. *)
Definition occurrences (c : pcircuit) : list nat := concat (map (vars_at (pc_heap C P c)) (firsts [] (pc_ops C P c))).

(** The parameter with variables replaced: the i-th variable of the register by the i-th number. *)
Fixpoint lookup_var (v : nat) (register : list nat) (ps : list P) : option P :=
  match register, ps with
  | x :: register', p :: ps' => if Nat.eqb v x then Some p else lookup_var v register' ps'
  | _, _ => None
  end.
Definition value (register : list nat) (ps : list P) (a : arg) : arg :=
  match a with
  | Num _ p => Num P p
  | Var _ v => match lookup_var v register ps with Some p => Num P p | None => Var P v end
  end.
Definition with_values (register : list nat) (ps : list P) (o : cop C P) : cop C P :=
  mkCop C P (co_class C P o) (map (value register ps) (co_args C P o)) (co_qubits C P o).
(** The circuit, no longer parametric, with variables replaced. *)
Definition substituted (register : list nat) (ps : list P) (c : pcircuit) : pcircuit :=
  mkPC C P (pc_qubits C P c) None (map (with_values register ps) (pc_heap C P c)) (pc_ops C P c).
(** Every operation of the circuit is an object. *)
Definition whole (c : pcircuit) : Prop := forall i, In i (pc_ops C P c) -> nth_error (pc_heap C P c) i <> None.
(** The matrix property leaves operations with the right values before it builds the matrix. *)
Definition right_values (register : list nat) (c : pcircuit) (ps : list P) : Prop :=
  exists h, fill_ops C P (pc_heap C P c) (pc_ops C P c) (map (Num P) ps) = Ok h /\
    forall i, In i (pc_ops C P c) -> nth_error h i = nth_error (pc_heap C P (substituted register ps c)) i.
End CustomSpec.

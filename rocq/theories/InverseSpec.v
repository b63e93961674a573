(** Specification for C87: sequences of gates and what takes them back. *)
From Coq Require Import List NArith Reals.
From Verif Require Import GateModel.
Import ListNotations.

(** Gates that together take back a gate of the library, first gate first. *)
Definition inverse1 (g : gate1) : list gate1 :=
  match g with
  | GIdentity => []
  | GS => [GZ; GS]
  | GT => [GT; GS; GZ]
  | GRX a => [GRX (- a)]
  | GRY a => [GRY (- a)]
  | GRZ a => [GRZ (- a)]
  | GRotation b c d => [GRotation (- d) (- c) (- b)]
  | g => [g]
  end.
Definition inverse_gate (g : gate) : list gate :=
  match g with GOne g => map GOne (inverse1 g) | GC g => map GC (inverse1 g) | g => [g] end.

(** For a sequence the last gate is taken back first. *)
Fixpoint inverse (l : list (gate * list nat)) : list (gate * list nat) :=
  match l with [] => [] | s :: l' => inverse l' ++ map (fun h => (h, snd s)) (inverse_gate (fst s)) end.

(** Each gate of the sequence on as many different qubits as it needs, picked by numbers below [k]. *)
Definition width (g : gate) : nat := match g with GOne _ => 1 | GC _ | GSWAP => 2 | GCSWAP | GCCX => 3 end.
Definition picked (k : nat) (l : list (gate * list nat)) : Prop :=
  forall g js, In (g, js) l -> List.length js = width g /\ NoDup js /\ forall j, In j js -> (j < k)%nat.

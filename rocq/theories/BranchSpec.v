(** Specification of what a circuit with measurements and conditional operations can do: its branches. *)
From Coq Require Import List NArith Bool Reals.
From Verif Require Import Py CRing Cplx KernelSpec SimModel SimSpec SampleSpec.
Import ListNotations.
Local Open Scope R_scope.

(** Outcomes are stored in the bits of the measurement, in order; qubits without a bit are not recorded. *)
Definition recorded (store : option (list nat)) (os : list bool) (bits : nat -> option bool) : nat -> option bool :=
  match store with
  | None => bits
  | Some bs => fold_left (fun f (bo : nat * bool) => fun b => if Nat.eqb b (fst bo) then Some (snd bo) else f b) (combine bs os) bits
  end.

(** The total probability of a state that need not be normalised. *)
Definition weight (n : N) (w : N -> C) : R := Rsum (Nrange (2 ^ n)) (fun i => Cnorm2 (w i)).

(** One branch of a circuit: the operations, the outcomes of all measurements in order, bits and state before, bits and
    state after.  A gate acts on the state, a measurement keeps the amplitudes that show its outcomes and removes the
    others; nothing is scaled, so that the weight of the final state is the probability of the branch. *)
Inductive branch (c : scirc Ccring)
  : list (sop Ccring) -> list bool -> (nat -> option bool) -> (N -> C) -> (nat -> option bool) -> (N -> C) -> Prop :=
| branch_end bits v bits' w : (forall b, bits' b = bits b) -> (forall i, (i < 2 ^ num_qubits Ccring c)%N -> w i = v i) ->
    branch c [] [] bits v bits' w
| branch_blocked o ops h bits v bits' w : some_zero bits (so_cond Ccring o) -> branch c ops h bits v bits' w ->
    branch c (o :: ops) h bits v bits' w
| branch_gate o ops h ts bits v v' bits' w : ~ some_zero bits (so_cond Ccring o) -> is_measure (so_kind Ccring o) = false ->
    placed c o ts ->
    (forall i, (i < 2 ^ num_qubits Ccring c)%N -> v' i = gate_action false (num_qubits Ccring c) (so_kind Ccring o) ts v i) ->
    branch c ops h bits v' bits' w -> branch c (o :: ops) h bits v bits' w
| branch_measure o ops mid store os h ts bits v v' bits' w : ~ some_zero bits (so_cond Ccring o) ->
    so_kind Ccring o = KMeasure Ccring mid store -> placed c o ts -> length os = length ts ->
    (forall i, (i < 2 ^ num_qubits Ccring c)%N -> v' i = if shows (num_qubits Ccring c) i ts os then v i else C0) ->
    branch c ops h (recorded store os bits) v' bits' w -> branch c (o :: ops) (os ++ h) bits v bits' w.

(** [w], scaled to total probability 1. *)
Definition scaled (n : N) (w : N -> C) : N -> C := fun i => Cmul (RtoC (1 / sqrt (weight n w))) (w i).

(** Specifications for C74: the operator of a circuit, and what it means that a circuit called inside another
    one acts on the qubits it was given. *)
From Coq Require Import List NArith Bool.
From Verif Require Import Py CRing KernelSpec SimModel SimSpec UnitarySpec.
Import ListNotations.
Local Open Scope N_scope.

Section Operator.
Context {K : cring}.

(** [M] is the matrix of a circuit without conditions: column [s] is what the circuit makes of basis state [s]. *)
Definition operator (le : bool) (c : scirc K) (M : N -> N -> K) : Prop :=
  forall s, s < 2 ^ num_qubits K c -> runs le c (fun _ => None) (sc_ops K c) (basis s) (fun r => M r s).

(** The operator [M] of a circuit acting on the qubits at positions [ts] of a larger one: the first qubit of
    the circuit is at the first of these positions, and so on. *)
Definition acts_on (le : bool) (n : N) (M : N -> N -> K) (ts : list N) (v : N -> K) : N -> K :=
  op_apply le n M (if le then ts else rev ts) [] v.

Definition unconditional (c : scirc K) : Prop := forall o, In o (sc_ops K c) -> so_cond K o = [].
End Operator.

(** Simulating [sd'] gives what simulating [sd] gives, changed by [F]; the memory (bits, stored outcomes, random
    numbers used) is the same, and so is an error. *)
Definition continues {K : cring} (sim : scirc K -> mem K -> mem K * res (sim_out K)) (sd sd' : scirc K) (F : (N -> K) -> N -> K) : Prop :=
  forall m, match sim sd m with
            | (m', Ok (SVec _ u)) => exists w, sim sd' m = (m', Ok (SVec K w)) /\ forall i, i < 2 ^ num_qubits K sd -> w i = F u i
            | (m', Ok _) => False
            | (m', Err e) => sim sd' m = (m', Err e)
            end.

(** Specifications for the simulator: well-formed circuits, exchanged qubits, probabilities. *)
From Coq Require Import List NArith Bool Reals.
From Verif Require Import Py CRing Cplx KernelSpec SimModel.
Import ListNotations.
Local Open Scope N_scope.

(** Basis index [i] with the bits of qubits [a] and [b] exchanged. *)
Definition exchange (le : bool) (n i a b : N) : N :=
  qset le n (qset le n i a (qbit le n i b)) b (qbit le n i a).

(** Basis index [i] with the bit of qubit [q] inverted. *)
Definition flip (le : bool) (n i q : N) : N := qset le n i q (negb (qbit le n i q)).

Section Spec.
Context {K : cring}.

(** A set of operators with sum of [E^dagger E] equal to the identity. *)
Definition complete (size : N) (Gs : list (N -> N -> K)) : Prop :=
  forall i j, i < size -> j < size ->
    sumf Gs (fun G => sumf (Nrange size) (fun s => rmul (rconj (G s i)) (G s j)))
    = if i =? j then r1 else r0.

(** The number of qubits a gate acts on. *)
Definition arity (k : kind K) : option nat :=
  match k with
  | KMeasure _ _ _ => None
  | KSwap _ => Some 2%nat
  | KCSwap _ | KCCX _ => Some 3%nat
  | KControlled _ nc _ _ => Some (S nc)
  | KOther _ nq _ => Some nq
  end.

Definition is_measure (k : kind K) : bool := match k with KMeasure _ _ _ => true | _ => false end.

(** Gates the simulator knows: at most two controls, 2x2 matrices. *)
Definition supported (k : kind K) : Prop :=
  match k with
  | KControlled _ nc dim _ => (nc = 1%nat \/ nc = 2%nat) /\ dim = 2
  | KOther _ nq _ => nq = 1%nat
  | _ => True
  end.

Definition unitary_kind (k : kind K) : Prop :=
  match k with
  | KControlled _ _ _ m | KOther _ _ m => unitary 2 m
  | _ => True
  end.

(** An operation on distinct qubits of the circuit, as many as the gate needs. *)
Definition wf_op (c : scirc K) (o : sop K) : Prop :=
  exists qs, so_qubits K o = Some qs /\ incl qs (sc_qubits K c) /\
    (is_measure (so_kind K o) = false -> NoDup qs) /\
    (forall k, arity (so_kind K o) = Some k -> length qs = k) /\
    supported (so_kind K o).

Definition wf_circ (c : scirc K) : Prop :=
  NoDup (sc_qubits K c) /\ sc_qubits K c <> [] /\ forall o, In o (sc_ops K c) -> wf_op c o.

(** The action of a gate on a state, by basis index; [ts] are the positions of its qubits. *)
Definition gate_action (le : bool) (n : N) (k : kind K) (ts : list N) (v : N -> K) : N -> K :=
  match k, ts with
  | KSwap _, [a; b] => fun i => v (exchange le n i a b)
  | KCSwap _, [c; a; b] => fun i => if qbit le n i c then v (exchange le n i a b) else v i
  | KCCX _, [c; d; t] => fun i => if qbit le n i c && qbit le n i d then v (flip le n i t) else v i
  | KControlled _ _ _ m, [c; t] => op_apply le n m [t] [c] v
  | KControlled _ _ _ m, [c; d; t] => op_apply le n m [t] [c; d] v
  | KOther _ _ m, [t] => op_apply le n m [t] [] v
  | _, _ => v
  end.

(** Some condition bit holds 0. *)
Definition some_zero (bits : nat -> option bool) (cond : list nat) : Prop :=
  exists b, In b cond /\ bits b = Some false.

Definition uncond (o : sop K) : sop K := mkSop K (so_kind K o) (so_qubits K o) [].
End Spec.

Local Open Scope R_scope.

(** The probability that qubit [q] of a state is [b]. *)
Definition prob (le : bool) (n q : N) (b : bool) (v : N -> C) : R :=
  Rsum (filter (fun i => Bool.eqb (qbit le n i q) b) (Nrange (2 ^ n))) (fun i => Cnorm2 (v i)).

(** A state of total probability 1. *)
Definition normalised (n : N) (v : N -> C) : Prop := Rsum (Nrange (2 ^ n)) (fun i => Cnorm2 (v i)) = 1.

(** Random numbers as returned by [rng.uniform()]. *)
Definition uniform (u : R) : Prop := 0 <= u < 1.

(** ** Circuits without measurements *)
Section Runs.
Context {K : cring}.

(** [ts] are the positions of the operation's qubits in the circuit. *)
Definition placed (c : scirc K) (o : sop K) (ts : list N) : Prop :=
  exists qs, so_qubits K o = Some qs /\
    Forall2 (fun q t => nth_error (sc_qubits K c) (N.to_nat t) = Some q) qs ts.

(** The state [v] becomes [w] when the operations that are not blocked act one after the other. *)
Inductive runs (le : bool) (c : scirc K) (bits : nat -> option bool)
  : list (sop K) -> (N -> K) -> (N -> K) -> Prop :=
| runs_nil v w : (forall i, (i < 2 ^ num_qubits K c)%N -> w i = v i) -> runs le c bits [] v w
| runs_skip o ops v w :
    some_zero bits (so_cond K o) -> runs le c bits ops v w -> runs le c bits (o :: ops) v w
| runs_gate o ops ts v v' w :
    ~ some_zero bits (so_cond K o) -> placed c o ts ->
    (forall i, (i < 2 ^ num_qubits K c)%N ->
       v' i = gate_action le (num_qubits K c) (so_kind K o) ts v i) ->
    runs le c bits ops v' w -> runs le c bits (o :: ops) v w.

Definition measurement_free (c : scirc K) : Prop :=
  forall o, In o (sc_ops K c) -> is_measure (so_kind K o) = false.

Definition unitary_circ (c : scirc K) : Prop := forall o, In o (sc_ops K c) -> unitary_kind (so_kind K o).
End Runs.

(** ** Which bits a run determines *)
Section Determined.
Context {K : cring}.

(** The bits a measurement certainly writes when it runs. *)
Definition stored_bits (o : sop K) : list nat :=
  match so_kind K o, so_qubits K o with
  | KMeasure _ _ (Some bs), Some qs => firstn (length qs) bs
  | _, _ => []
  end.

(** Every condition refers to bits in [D] or to bits stored earlier by an unconditional measurement. *)
Fixpoint conditions_set (D : list nat) (ops : list (sop K)) : Prop :=
  match ops with
  | [] => True
  | o :: ops' =>
      incl (so_cond K o) D /\
      conditions_set (match so_cond K o with [] => stored_bits o ++ D | _ => D end) ops'
  end.

(** All bits known at the end. *)
Fixpoint determined (D : list nat) (ops : list (sop K)) : list nat :=
  match ops with
  | [] => D
  | o :: ops' => determined (match so_cond K o with [] => stored_bits o ++ D | _ => D end) ops'
  end.

(** Measurement [mid] is performed by operation [o] only, without condition. *)
Definition measured_once (ops : list (sop K)) (mid : nat) (o : sop K) : Prop :=
  exists ops1 ops2 bits, ops = ops1 ++ o :: ops2 /\ so_kind K o = KMeasure K mid bits /\ so_cond K o = [] /\
    forall x, In x (ops1 ++ ops2) -> forall bits', so_kind K x <> KMeasure K mid bits'.
End Determined.

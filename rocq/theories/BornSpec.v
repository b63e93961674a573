(** Specification of measurements in programs that simulate. *)
From Coq Require Import List NArith Bool Reals String.
From Verif Require Import Py CRing Cplx SimModel SimSpec RegisterModel WorldModel WorldSpec LinkModel LinkSpec SessionModel.
Import ListNotations.
Local Open Scope nat_scope.
Local Open Scope string_scope.

(** Operation [o] measures the qubits [qs] and stores the outcomes in the bits [bs]. *)
Definition measuring (w : world R) (o : nat) (qs bs : list nat) : Prop :=
  exists y k, nth_error (w_op w) o = Some y /\ nth_error (w_cls w) (o_cls y) = Some k /\ k_name k = "Measurement" /\
    o_qubits y = Some (map IQubit qs) /\ o_bits y = Some (map IBit bs).

(** The places of qubits in the circuit. *)
Definition at_places (x : circ) (qs : list nat) (ts : list N) : Prop :=
  Forall2 (fun q t => nth_error (circuit_qubits x) (N.to_nat t) = Some (IQubit q)) qs ts.

(** The gates of the operations [before] of circuit [c], as far as their conditions allow, lead from the state in
    which all qubits are 0 to [v]. *)
Definition prepares (w : world R) (c : nat) (before : list nat) (v : N -> C) : Prop :=
  exists sc gates, seen w c = Some sc /\ Forall2 (shown w) before gates /\
    runs false sc (bit_value R w) gates (zero_state Ccring) v.

(** Words for compiling to QIR and loading it. *)
From Coq Require Import List String Bool Arith.
From Verif Require Import Py QirModel.
Import ListNotations.
Local Open Scope string_scope.
Local Open Scope list_scope.

(** The function that each gate is called by in QIR. *)
Definition function_of : list (string * string) :=
  [("X", "__quantum__qis__x__body"); ("Y", "__quantum__qis__y__body"); ("Z", "__quantum__qis__z__body");
   ("Hadamard", "__quantum__qis__h__body"); ("S", "__quantum__qis__s__body"); ("T", "__quantum__qis__t__body");
   ("RX", "__quantum__qis__rx__body"); ("RY", "__quantum__qis__ry__body"); ("RZ", "__quantum__qis__rz__body");
   ("CX", "__quantum__qis__cnot__body"); ("CZ", "__quantum__qis__cz__body");
   ("Rotation", "__quantum__qis__rot__body"); ("CY", "__quantum__qis__cy__body"); ("SWAP", "__quantum__qis__swap__body");
   ("CHadamard", "__quantum__qis__ch__body"); ("CRX", "__quantum__qis__crx__body"); ("CRY", "__quantum__qis__cry__body");
   ("CRZ", "__quantum__qis__crz__body"); ("CRotation", "__quantum__qis__crot__body"); ("CSWAP", "__quantum__qis__cswap__body");
   ("CCX", "__quantum__qis__ccnot__body"); ("Measurement", "__quantum__qis__mz__body")].
(** The gates that QIR's base profile does not have. *)
Definition extra : list string :=
  ["Rotation"; "CY"; "SWAP"; "CHadamard"; "CRX"; "CRY"; "CRZ"; "CRotation"; "CSWAP"; "CCX"].
(** Numbers of qubits and of parameters of the gates. *)
Definition arity : list (string * (nat * nat)) :=
  [("X", (1, 0)); ("Y", (1, 0)); ("Z", (1, 0)); ("Hadamard", (1, 0)); ("S", (1, 0)); ("T", (1, 0));
   ("RX", (1, 1)); ("RY", (1, 1)); ("RZ", (1, 1)); ("Rotation", (1, 3)); ("CX", (2, 0)); ("CY", (2, 0)); ("CZ", (2, 0));
   ("SWAP", (2, 0)); ("CHadamard", (2, 0)); ("CRX", (2, 1)); ("CRY", (2, 1)); ("CRZ", (2, 1)); ("CRotation", (2, 3));
   ("CSWAP", (3, 0)); ("CCX", (3, 0))].

Section QirSpec.
Variables P D : Type.
Variable dbl : P -> D.
Notation qop := (qop P).
Notation qcircuit := (qcircuit P).

(** [q] is in place [k] of one of the registers. *)
Definition in_place (rs : list (list nat)) (q k : nat) : Prop := exists r, In r rs /\ nth_error r k = Some q.
(** At most one register is not empty. *)
Definition one_register (rs : list (list nat)) : Prop :=
  forall i j r r', nth_error rs i = Some r -> nth_error rs j = Some r' -> r <> [] -> r' <> [] -> i = j.

Definition is_measurement (op : qop) : Prop := o_name P op = "Measurement".
(** The parameters, none for operations without the attribute. *)
Definition params_of (op : qop) : list P := match o_params P op with Some ps => ps | None => [] end.
Definition qubits_of (op : qop) : list nat := match o_qubits P op with Some qs => qs | None => [] end.
Definition bits_of (op : qop) : list nat := match o_bits P op with Some bs => bs | None => [] end.
(** Which qubit is measured into which bit. *)
Definition measured (op : qop) : list (nat * nat) := combine (qubits_of op) (bits_of op).

(** A call of the gate's function with the parameters and then the QIR qubits of the operation.  A function
    declared again has a number after its name. *)
Definition gate_call (c : qcircuit) (op : qop) (k : call D) : Prop :=
  exists f u is,
    In (o_name P op, f) function_of /\
    (u = f \/ In (o_name P op) extra /\ exists s, u = (f ++ "." ++ s)%string) /\
    k = Call D u (map (CDouble D) (map dbl (params_of op)) ++ map (CQubit D) is) /\
    Forall2 (in_place (c_qregs P c)) (qubits_of op) is.
Definition measure_call (c : qcircuit) (x : nat * nat) (k : call D) : Prop :=
  exists i j, in_place (c_qregs P c) (fst x) i /\ in_place (c_cregs P c) (snd x) j /\
    k = Call D "__quantum__qis__mz__body" [CQubit D i; CResult D j].
Definition output_call (c : qcircuit) (x : nat * nat) (k : call D) : Prop :=
  exists j, in_place (c_cregs P c) (snd x) j /\ k = Call D "__quantum__rt__result_record_output" [CResult D j].

(** An operation of a gate class reports its class's numbers and has that many qubits and parameters. *)
Definition proper (op : qop) : Prop :=
  is_measurement op \/
  exists nq np, In (o_name P op, (nq, np)) arity /\ o_nq P op = nq /\ o_np P op = np /\
    (forall qs, o_qubits P op = Some qs -> List.length qs = nq) /\ List.length (params_of op) = np.

(** The loaded gate has the operation's name, its parameters as doubles, and its qubits' places in the circuit. *)
Definition same_gate (c : qcircuit) (op : qop) (g : lop D) : Prop :=
  exists is, g = LGate D (o_name P op) (map dbl (params_of op)) is /\
    Forall2 (fun q i => nth_error (c_qubits P c) i = Some q) (qubits_of op) is.

(** The kind of an argument. *)
Definition kind_of (a : arg P) : kind := match a with ANum _ _ => KD | AQubit _ _ => KQ | AResult _ _ => KR end.
Definition gate_places (g : lop D) : list nat := match g with LGate _ _ _ is => is | LMeasure _ qs _ => qs end.

(** A gate on the circuit's qubits that the compiler can write: numeric parameters, and external functions are
    allowed and without parameters if QIR does not have the gate. *)
Definition writable (pnum : P -> bool) (c : qcircuit) (ext : bool) (op : qop) : Prop :=
  ~ is_measurement op /\ proper op /\ Forall (fun p => pnum p = true) (params_of op) /\
  (exists qs, o_qubits P op = Some qs /\ Forall (fun q => In q (c_qubits P c)) qs) /\
  (In (o_name P op) extra -> ext = true /\ params_of op = []).
Definition readable (c : qcircuit) (op : qop) : Prop :=
  is_measurement op /\ exists qs bs, o_qubits P op = Some qs /\ o_bits P op = Some bs /\
    Forall (fun q => In q (c_qubits P c)) qs /\ Forall (fun b => In b (c_bits P c)) bs.

(** The calls of the instructions that are not external. *)
Definition is_external (x : instr P) : bool := match i_type P x with EXTERNAL => true | _ => false end.
Fixpoint survivors (l : list (instr P)) (ks : list (call D)) : list (call D) :=
  match l, ks with
  | x :: l', k :: ks' => if is_external x then survivors l' ks' else k :: survivors l' ks'
  | _, _ => []
  end.
End QirSpec.

(** Specifications for C69: what a QIR program and an OpenQASM program say about the operations of a circuit. *)
From Coq Require Import List ZArith String Bool Arith.
From Verif Require Import Py QirModel QirSpec QasmModel QasmSpec LinkModel RegisterModel WorldModel WorldSpec WorldSpec4 LinkSpec.
Import ListNotations.
Local Open Scope nat_scope.
Local Open Scope string_scope.

Section ExportSpec.
Variables P D : Type.
Variable dbl : param P -> D.

(** Item [q] is in place [i] of one of the registers. *)
Definition at_place (rs : list (label * register)) (q : item) (i : nat) : Prop :=
  exists l r, In (l, r) rs /\ nth_error (contents r) i = Some q.
Definition has_name (w : world P) (y : opobj P) (n : string) : Prop :=
  exists k, nth_error (w_cls w) (o_cls y) = Some k /\ k_name k = n.

(** The call made for a gate: the function of its name, its parameters as doubles, its qubits by their places. *)
Definition called (w : world P) (x : circ) (o : nat) (k : QirModel.call D) : Prop :=
  exists y n qs f u js, nth_error (w_op w) o = Some y /\ has_name w y n /\ o_qubits y = Some qs /\
    In (n, f) function_of /\ (u = f \/ In n QirSpec.extra /\ exists s, u = f ++ "." ++ s) /\
    k = Call D u (map (CDouble D) (map dbl (o_params y)) ++ map (CQubit D) js)%list /\
    Forall2 (at_place (s_regs (c_q x))) qs js.
(** The pairs of a qubit and the bit it is measured into. *)
Definition measures (w : world P) (o : nat) (l : list (item * item)) : Prop :=
  exists y qs bs, nth_error (w_op w) o = Some y /\ has_name w y "Measurement" /\ o_qubits y = Some qs /\ o_bits y = Some bs /\
    l = combine qs bs.
Definition measured_call (x : circ) (p : item * item) (k : QirModel.call D) : Prop :=
  exists i j, at_place (s_regs (c_q x)) (fst p) i /\ at_place (s_regs (c_b x)) (snd p) j /\
    k = Call D "__quantum__qis__mz__body" [CQubit D i; CResult D j].
Definition recorded_call (x : circ) (p : item * item) (k : QirModel.call D) : Prop :=
  exists j, at_place (s_regs (c_b x)) (snd p) j /\ k = Call D "__quantum__rt__result_record_output" [CResult D j].

(** What construction does not guarantee of an operation: a class of the library, qubits, two of them for controlled
    classes, and parameters. *)
Record complete (w : world P) (y : opobj P) : Prop := {
  cm_class : o_cls y < List.length library;
  cm_qubits : exists qs, o_qubits y = Some qs /\
    forall k, nth_error (w_cls w) (o_cls y) = Some k -> controlled k -> List.length qs = 2;
  cm_params : forall k, nth_error (w_cls w) (o_cls y) = Some k -> has_params (k_kind k) = true -> o_params y <> []
}.
(** Gates that can be compiled: not Identity; parameters are ints or floats; gates outside the base profile only with
    external functions and without parameters. *)
Definition compilable (pnum : param P -> bool) (ext : bool) (w : world P) (y : opobj P) : Prop :=
  complete w y /\ ~ has_name w y "Measurement" /\ ~ has_name w y "Identity" /\ Forall (fun p => pnum p = true) (o_params y) /\
  (forall n, has_name w y n -> In n QirSpec.extra -> ext = true /\ o_params y = []).
Definition measurable (w : world P) (x : circ) (y : opobj P) : Prop :=
  has_name w y "Measurement" /\ o_cls y < List.length library /\ (exists qs, o_qubits y = Some qs) /\
  exists bs, o_bits y = Some bs /\ Forall (fun b => In b (circuit_bits x)) bs.

(** The statement written for a gate: its name in OpenQASM, its parameters, and operands that name its qubits. *)
Definition stated (show : param P -> string) (decl : list (string * nat)) (w : world P) (x : circ) (o : nat) (s : stmt) : Prop :=
  exists y n qs, nth_error (w_op w) o = Some y /\ has_name w y n /\ o_qubits y = Some qs /\
    (exists k, In (n, (s_name s, k)) qasm_names) /\ s_params s = map show (o_params y) /\
    Forall2 (fun q t => exists i, resolve decl t = Some i /\ nth_error (circuit_qubits x) i = Some q) qs (s_operands s).
(** The name of an operation's class, and the definition that is offered for gates of that name. *)
Definition named_op (w : world P) (o : nat) (n : string) : Prop := exists y, nth_error (w_op w) o = Some y /\ has_name w y n.
Definition offered (n : string) : list string :=
  if String.eqb n "Rotation" then ["gate rot(beta, gamma, delta) { rz(beta) q[0]; ry(gamma) q[0]; rz(delta) q[0]; }"]
  else if String.eqb n "CRotation" then ["// gate definition not implemented"]
  else if String.eqb n "SWAP" then ["gate swap a, b { cx b, a; cx a, b; cx b, a; }"]
  else if String.eqb n "CSWAP" then ["gate cswap c, a, b { cx b, a; ccx c, a, b; cx b, a; }"]
  else [].
End ExportSpec.

(** Programs of the library's own calls that keep registers and the qubits of operations, and in which no bit is taken
    for a number. *)
Definition both_ok (P : Type) (ptrue : P -> bool) (peqb : P -> P -> bool) (w : world P) (y : WorldModel.call P) : Prop :=
  own_ok P w y /\ classical_ok P ptrue peqb w y.
(** The same register and place, or not found. *)
Definition agree {P} (v : world P) (a : res (nat * nat)) (b : world P * res (nat * label * Z)) : Prop :=
  match a with Ok (i, k) => exists l, b = (v, Ok (i, l, Z.of_nat k)) | Err e => b = (v, Err e) end.

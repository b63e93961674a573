(** What the QIR compiler (qir/compiler.py:339-403) and the OpenQASM writer (circuit.py:585-641) see of a
    circuit built with circuit.py. *)
From Coq Require Import List ZArith String Bool Arith.
From Verif Require Import Py QirModel QasmModel LinkModel RegisterModel WorldModel.
Import ListNotations.
Local Open Scope nat_scope.

Section Export.
Variable P : Type.

(** The class name, [parameters] for classes that have the attribute, [num_qubits], [num_parameters] or 0
    without a number (compiler.py:353, 358-359, 387-390), the qubits, and the bits of measurements.  [None]: the
    operation reports no number of qubits, or holds something else than qubits and bits; not modelled. *)
Definition qir_op (w : world P) (o : nat) : option (qop (param P)) :=
  match nth_error (w_op w) o with
  | None => None
  | Some y =>
      match nth_error (w_cls w) (o_cls y), o_numq y, opt_all qubit_id (o_qubits y) with
      | Some k, Some n, Some qs =>
          match match k_kind k with KMeas => opt_all bit_id (o_bits y) | _ => Some None end with
          | Some bs =>
              Some (QirModel.mkOp (param P) (k_name k) (if has_params (k_kind k) then Some (o_params y) else None) n
                      (match k_nparams k with Some m => if has_params (k_kind k) then m else 0 | None => 0 end) qs bs)
          | None => None
          end
      | _, _, _ => None
      end
  end.
Definition reg_ids (f : item -> option nat) (r : register) : option (list nat) :=
  match items (core r) with Ok l => all_some f l | Err _ => None end.
(** The registers, and the operations.  The compiler begins with [num_qubits] and [num_bits]
    (compiler.py:349), which may fail. *)
Definition qir_circuit (w : world P) (c : nat) : option (qcircuit (param P)) :=
  match nth_error (w_circ w) c, snd (qubits c w), snd (bits c w) with
  | Some x, Ok _, Ok _ =>
      match all_some (fun p => reg_ids qubit_id (snd p)) (s_regs (c_q x)), all_some (fun p => reg_ids bit_id (snd p)) (s_regs (c_b x)),
            all_some (qir_op w) (c_ops x) with
      | Some qr, Some br, Some ops => Some (QirModel.mkC (param P) qr br ops)
      | _, _, _ => None
      end
  | _, _, _ => None
  end.

(** The writer: the class name, parameters, qubits and number of qubits of each operation.  Conditions are left
    out: the writer does not read them (C49_conditions_lost). *)
Definition qasm_op (w : world P) (o : nat) : option (aop (param P)) :=
  match nth_error (w_op w) o with
  | None => None
  | Some y =>
      match nth_error (w_cls w) (o_cls y), opt_all qubit_id (o_qubits y) with
      | Some k, Some qs => Some (mkA (param P) (Class (k_name k)) (o_params y) qs (o_numq y) None)
      | _, _ => None
      end
  end.
(** Registers with their labels.  Of classical registers the writer only uses label and length
    (circuit.py:616-626): places stand for the bits. *)
Definition label_ids (p : label * register) : option (label * list nat) := option_map (pair (fst p)) (reg_ids qubit_id (snd p)).
Definition label_places (p : label * register) : option (label * list nat) :=
  match items (core (snd p)) with Ok l => Some (fst p, seq 0 (List.length l)) | Err _ => None end.
Definition qasm_circuit (w : world P) (c : nat) : option (acircuit (param P) label) :=
  match nth_error (w_circ w) c, snd (qubits c w) with
  | Some x, Ok _ =>
      match all_some label_ids (s_regs (c_q x)), all_some label_places (s_regs (c_b x)), all_some (qasm_op w) (c_ops x) with
      | Some qr, Some br, Some ops => Some (mkAC (param P) label qr br ops)
      | _, _, _ => None
      end
  | _, _ => None
  end.
End Export.

(** Model of [Instruction.__eq__] (qir/instructions.py:187-221).  [Operation.__eq__] is [op_eq] in
    WorldModel.v. *)
From Coq Require Import List String Bool Arith.
From Verif Require Import Py QirModel.
Import ListNotations.

Section Eq.
Variable P : Type.
Variable peq : P -> P -> bool.              (* [==] of numbers *)

(** [[a.type.pointee.name == "Qubit" for a in args if isinstance(a, pyqir.Constant)].count(True)] *)
Definition count_qubits (args : list (arg P)) : nat :=
  List.length (filter (fun a => match a with AQubit _ _ => true | _ => false end) args).
Definition count_results (args : list (arg P)) : nat :=
  List.length (filter (fun a => match a with AResult _ _ => true | _ => false end) args).
(** [[a for a in args if isinstance(a, (int, float))]] *)
Fixpoint parameters (args : list (arg P)) : list P :=
  match args with
  | [] => []
  | ANum _ p :: l => p :: parameters l
  | _ :: l => parameters l
  end.
(** [==] of lists *)
Fixpoint params_eq (a b : list P) : bool :=
  match a, b with
  | [], [] => true
  | x :: a', y :: b' => peq x y && params_eq a' b'
  | _, _ => false
  end.

(** The other operand is an instruction or an object without the attribute [name]. *)
Definition instr_eq (x : instr P) (value : option (instr P)) : res bool :=
  match value with
  | None => Err AttributeError
  | Some y =>
      Ok (String.eqb (i_name P x) (i_name P y) && itype_eqb (i_type P x) (i_type P y) &&
          Nat.eqb (count_qubits (i_args P x)) (count_qubits (i_args P y)) &&
          Nat.eqb (count_results (i_args P x)) (count_results (i_args P y)) &&
          params_eq (parameters (i_args P x)) (parameters (i_args P y)))
  end.
End Eq.

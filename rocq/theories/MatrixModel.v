(** Model of build_unitary (tools/unitary.py:43-108) called on a circuit built with circuit.py: what is read from its
    operations, and the loop.

    Simplifications.  The matrix of an operation is computed when its turn comes; the code reads the matrix of an operation
    without [control] only if its first qubit is in the circuit.  Classes outside the library and measurements without
    qubits are [Undefined].  The cache is the subject of CacheModel.v. *)
From Coq Require Import List NArith Bool Reals.
From Verif Require Import Py CRing Cplx UnitaryModel GateModel RegisterModel WorldModel LinkModel.
Import ListNotations.
Local Open Scope nat_scope.

Definition or_nothing {A} (o : option (list A)) : list A := match o with Some l => l | None => [] end.

(** unitary.py:59-62, 77-88, 103-107: an operation with [control] is read through [op.control or []],
    [op.target or []] and the matrix of the class [op.target_operation], which is [None] if that class has parameters
    (mixedproperty.py:119-121); another one through [op.qubits], [op.num_qubits] and [op.matrix].  The matrix of a
    measurement is [None] (base.py:335-341), a variable is no number: both are TypeErrors in numpy. *)
Definition view (w : world R) (o : nat) : res (uop Ccring) :=
  match nth_error (w_op w) o with
  | None => Err Undefined
  | Some y =>
      match nth_error library (o_cls y) with
      | None => Err Undefined
      | Some (x, f) =>
          match k_kind x with
          | KCtrl =>
              match opt_all qubit_id (o_control y), opt_all qubit_id (o_target y), f [] with
              | Some c, Some t, Some (GC g) => Ok (UControlled Ccring 2 (Some (matrix1 g)) (or_nothing c) (or_nothing t))
              | _, _, _ => Err Undefined
              end
          | KParCtrl =>
              match opt_all qubit_id (o_control y), opt_all qubit_id (o_target y) with
              | Some c, Some t => Ok (UControlled Ccring 2 None (or_nothing c) (or_nothing t))
              | _, _ => Err Undefined
              end
          | KMeas => match o_qubits y with Some (_ :: _) => Err TypeError | _ => Err Undefined end
          | KPlain | KParam =>
              match opt_all qubit_id (o_qubits y), all_some number_of (o_params y) with
              | None, _ => Err Undefined
              | _, None => Err TypeError
              | Some qs, Some ps =>
                  match f ps with
                  | Some (GOne g) => Ok (USingle Ccring 1 (matrix1 g) qs)
                  | Some GSWAP => Ok (USingle Ccring 2 swap_matrix qs)
                  | Some GCSWAP => Ok (USingle Ccring 3 cswap_matrix qs)
                  | Some GCCX => Ok (USingle Ccring 3 ccx_matrix qs)
                  | _ => Err Undefined
                  end
              end
          end
      end
  end.

(** unitary.py:56-63 *)
Fixpoint unitary_ops (w : world R) (qs ids : list nat) (state : N -> N -> Ccring) : res (N -> N -> Ccring) :=
  match ids with
  | [] => Ok state
  | o :: ids' =>
      let? u := view w o in
      let? s := bu_loop Ccring (2 ^ N.of_nat (length qs))%N qs [u] state in
      unitary_ops w qs ids' s
  end.

(** unitary.py:44-63 *)
Definition unitary_of (w : world R) (c : nat) : res (N -> N -> Ccring) :=
  match nth_error (w_circ w) c, snd (qubits c w) with
  | Some x, Ok r =>
      let? l := items (core r) in
      match all_some qubit_id l with
      | Some qs => unitary_ops w qs (c_ops x) (eye Ccring)
      | None => Err Undefined
      end
  | _, Err e => Err e
  | None, _ => Err Undefined
  end.

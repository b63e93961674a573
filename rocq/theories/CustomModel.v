(** Model of operations made from circuits: create_operation (operations/base.py:79-155) and the matrix of such an operation.

    Simplifications.  [copy.deepcopy(circuit)] is the persistent heap: the circuit itself never changes, sharing of operation
    objects inside the circuit is kept.  What build_unitary needs from an operation (its class, parameters and qubits) is
    computed for every operation when its turn comes; the code reads the matrix of an operation without [control] only if
    its first qubit is in the circuit.  The cache of build_unitary never hits, because every copy is a new object. *)
From Coq Require Import List NArith Bool Reals.
From Verif Require Import Py CRing Cplx UnitaryModel GateModel WorldModel.
Import ListNotations.
Local Open Scope list_scope.

Section Custom.
Variable C : Type.                     (* classes of operations *)
Variable P : Type.                     (* numbers given as parameters *)
Variable K : cring.
(** A parameter: a number, or a variable, by object. *)
Inductive arg := Num (p : P) | Var (v : nat).
(** What unitary.py:66-108 reads from an operation of a class with parameters and qubits. *)
Variable view : C -> list arg -> option (list nat) -> res (uop K).

Record cop := mkCop { co_class : C; co_args : list arg; co_qubits : option (list nat) }.
(** A circuit: qubits, the variables of the parameter register if it is a ParametricCircuit, operation objects, and the
    operations by object. *)
Record pcircuit := mkPC { pc_qubits : list nat; pc_params : option (list nat); pc_heap : list cop; pc_ops : list nat }.

(** base.py:138-141, the loop over one operation's parameters; [parameters.pop(0)] *)
Fixpoint fill (args ps : list arg) : res (list arg * list arg) :=
  match args with
  | [] => Ok ([], ps)
  | Num p :: args' => let? r := fill args' ps in Ok (Num p :: fst r, snd r)
  | Var _ :: args' =>
      match ps with
      | [] => Err IndexError
      | q :: ps' => let? r := fill args' ps' in Ok (q :: fst r, snd r)
      end
  end.
(** base.py:136-142 *)
Fixpoint fill_ops (h : list cop) (ids : list nat) (ps : list arg) : res (list cop) :=
  match ids with
  | [] => Ok h
  | i :: ids' =>
      match nth_error h i with
      | None => Err Undefined                    (* no such object *)
      | Some o =>
          let? r := fill (co_args o) ps in
          fill_ops (set_nth i (mkCop (co_class o) (fst r) (co_qubits o)) h) ids' (snd r)
      end
  end.
(** unitary.py:53-63 on objects *)
Fixpoint build_ops (qs : list nat) (h : list cop) (ids : list nat) (state : N -> N -> K) : res (N -> N -> K) :=
  match ids with
  | [] => Ok state
  | i :: ids' =>
      match nth_error h i with
      | None => Err Undefined
      | Some o =>
          let? u := view (co_class o) (co_args o) (co_qubits o) in
          let? s := bu_loop K (2 ^ N.of_nat (length qs))%N qs [u] state in
          build_ops qs h ids' s
      end
  end.
(** base.py:126-144, read on the class ([None]) or on an instance with parameters; base.py:149-152: on the class of a
    parametric circuit it is [None] (mixedproperty.py:119-121) *)
Definition custom_matrix (c : pcircuit) (self : option (list arg)) : res (option (N -> N -> K)) :=
  match pc_params c, self with
  | Some _, None => Ok None
  | Some _, Some ps =>
      let? h := fill_ops (pc_heap c) (pc_ops c) ps in
      let? m := build_ops (pc_qubits c) h (pc_ops c) (eye K) in Ok (Some m)
  | None, _ => let? m := build_ops (pc_qubits c) (pc_heap c) (pc_ops c) (eye K) in Ok (Some m)
  end.
End Custom.

(** Gates of the library as build_unitary sees them, with one control for the controlled ones; a class is a gate for each
    list of numbers.  A variable as a parameter: the arithmetic in the matrix is a TypeError. *)
Fixpoint numbers (l : list (arg R)) : option (list R) :=
  match l with
  | [] => Some []
  | Num _ p :: l' => option_map (cons p) (numbers l')
  | Var _ _ :: _ => None
  end.
Definition lib_view (g : list R -> option gate) (args : list (arg R)) (qs : option (list nat)) : res (uop Ccring) :=
  match numbers args with
  | None => Err TypeError
  | Some l =>
      match g l with
      | None => Err ValueError
      | Some (GOne g1) => Ok (USingle Ccring 1%N (matrix1 g1) qs)
      | Some (GC g1) =>
          let l := match qs with Some l => l | None => [] end in
          Ok (UControlled Ccring 2%N (if parametric1 g1 then None else Some (matrix1 g1)) (firstn 1 l) (skipn 1 l))
      | Some GSWAP => Ok (USingle Ccring 2%N swap_matrix qs)
      | Some GCSWAP => Ok (USingle Ccring 3%N cswap_matrix qs)
      | Some GCCX => Ok (USingle Ccring 3%N ccx_matrix qs)
      end
  end.

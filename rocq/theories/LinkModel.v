(** What the simulator (simulator.pyx) sees of a circuit built with circuit.py: the library classes of
    operations/operations.py with the gates they stand for, and the reading of a circuit's qubits and
    operations (simulator.pyx:158-171, 44-130). *)
From Coq Require Import List ZArith NArith String Bool Reals.
From Verif Require Import Py Cplx SimModel GateModel RegisterModel WorldModel.
Import ListNotations.
Local Open Scope nat_scope.
Local Open Scope string_scope.

(** Gates of a class without parameters, with one and with three. *)
Definition par0 (g : gate) (ps : list R) : option gate := match ps with [] => Some g | _ => None end.
Definition par1 (f : R -> gate) (ps : list R) : option gate := match ps with [a] => Some (f a) | _ => None end.
Definition par3 (f : R -> R -> R -> gate) (ps : list R) : option gate :=
  match ps with [a; b; c] => Some (f a b c) | _ => None end.

(** The classes of operations.py in order (lines 78-866) and Measurement (base.py:653-760), each with its
    class attributes and with the gate that stands for an instance with the given parameters.  Measurement
    has no gate. *)
Definition library : list (cls * (list R -> option gate)) :=
  [ (mkCls "Identity" KPlain (Some 1) None None None, par0 (GOne GIdentity));              (* 78-86 *)
    (mkCls "X" KPlain (Some 1) None None None, par0 (GOne GX));                            (* 109-117 *)
    (mkCls "Y" KPlain (Some 1) None None None, par0 (GOne GY));                            (* 140-148 *)
    (mkCls "Z" KPlain (Some 1) None None None, par0 (GOne GZ));                            (* 171-179 *)
    (mkCls "Hadamard" KPlain (Some 1) None None None, par0 (GOne GHadamard));              (* 203-211 *)
    (mkCls "S" KPlain (Some 1) None None None, par0 (GOne GS));                            (* 234-242 *)
    (mkCls "T" KPlain (Some 1) None None None, par0 (GOne GT));                            (* 269-277 *)
    (mkCls "RX" KParam (Some 1) None None (Some 1), par1 (fun a => GOne (GRX a)));         (* 305-316 *)
    (mkCls "RY" KParam (Some 1) None None (Some 1), par1 (fun a => GOne (GRY a)));         (* 344-355 *)
    (mkCls "RZ" KParam (Some 1) None None (Some 1), par1 (fun a => GOne (GRZ a)));         (* 383-394 *)
    (mkCls "Rotation" KParam (Some 1) None None (Some 3),
       par3 (fun a b c => GOne (GRotation a b c)));                                        (* 422-433 *)
    (mkCls "CX" KCtrl None (Some 1) (Some 1) None, par0 (GC GX));                          (* 483-493 *)
    (mkCls "CY" KCtrl None (Some 1) (Some 1) None, par0 (GC GY));                          (* 514-524 *)
    (mkCls "CZ" KCtrl None (Some 1) (Some 1) None, par0 (GC GZ));                          (* 541-551 *)
    (mkCls "CHadamard" KCtrl None (Some 1) (Some 1) None, par0 (GC GHadamard));            (* 568-578 *)
    (mkCls "CRX" KParCtrl None (Some 1) (Some 1) (Some 1), par1 (fun a => GC (GRX a)));    (* 595-607 *)
    (mkCls "CRY" KParCtrl None (Some 1) (Some 1) (Some 1), par1 (fun a => GC (GRY a)));    (* 626-638 *)
    (mkCls "CRZ" KParCtrl None (Some 1) (Some 1) (Some 1), par1 (fun a => GC (GRZ a)));    (* 657-669 *)
    (mkCls "CRotation" KParCtrl None (Some 1) (Some 1) (Some 3),
       par3 (fun a b c => GC (GRotation a b c)));                                          (* 688-700 *)
    (mkCls "SWAP" KPlain (Some 2) None None None, par0 GSWAP);                             (* 721-729 *)
    (mkCls "CSWAP" KPlain (Some 3) None None None, par0 GCSWAP);                           (* 769-777 *)
    (mkCls "CCX" KPlain (Some 3) None None None, par0 GCCX);                               (* 825-833 *)
    (mkCls "Measurement" KMeas None None None None, fun _ => None) ].                      (* base.py:653-661 *)

Definition library_classes : list cls := map fst library.

Fixpoint all_some {A B} (f : A -> option B) (l : list A) : option (list B) :=
  match l with
  | [] => Some []
  | a :: l' => match f a, all_some f l' with Some b, Some bs => Some (b :: bs) | _, _ => None end
  end.
Definition qubit_id (v : item) : option nat := match v with IQubit q => Some q | _ => None end.
Definition bit_id (v : item) : option nat := match v with IBit b => Some b | _ => None end.
Definition number_of (p : param R) : option R := match p with PNum a => Some a | PVar _ => None end.

Definition opt_all {A B} (f : A -> option B) (o : option (list A)) : option (option (list B)) :=
  match o with None => Some None | Some l => option_map Some (all_some f l) end.

(** The branch of apply_instruction (simulator.pyx:44-130) an operation takes.  [None]: classes outside
    the library, parameters that are not numbers. *)
Definition seen_kind (o : nat) (y : opobj R) : option (SimModel.kind Ccring) :=
  match nth_error library (o_cls y) with
  | None => None
  | Some (x, f) =>
      match k_kind x with
      | KMeas => option_map (KMeasure Ccring o) (opt_all bit_id (o_bits y))
      | _ => match all_some number_of (o_params y) with
             | Some ps => option_map gate_kind (f ps)
             | None => None
             end
      end
  end.

(** An operation: [op.qubits] and [op._cond] (base.py:297-300, 311-321). *)
Definition seen_op (w : world R) (o : nat) : option (sop Ccring) :=
  match nth_error (w_op w) o with
  | None => None
  | Some y =>
      match seen_kind o y, opt_all qubit_id (o_qubits y), opt_all bit_id (o_cond y) with
      | Some k, Some qs, Some bs => Some (mkSop Ccring k qs match bs with Some l => l | None => [] end)
      | _, _, _ => None
      end
  end.

(** A circuit: [circuit.qubits] and [circuit.circuit] (circuit.py:225-232, 175-178).  [None] also when
    [circuit.qubits] fails or holds something that is not a qubit. *)
Definition seen (w : world R) (c : nat) : option (scirc Ccring) :=
  match nth_error (w_circ w) c, snd (qubits c w) with
  | Some x, Ok r =>
      match items (core r) with
      | Ok l =>
          match all_some qubit_id l, all_some (seen_op w) (c_ops x) with
          | Some qs, Some os => Some (mkScirc Ccring qs os)
          | _, _ => None
          end
      | Err _ => None
      end
  | _, _ => None
  end.

(** The memory of the simulation: the values of the bits (primitives.py:96-145). *)
Definition memory (w : world R) : SimModel.mem Ccring :=
  mkMem Ccring (fun b => match nth_error (w_bit w) b with Some (_, v) => v | None => None end)
    0 (fun _ => None) (fun _ => []) 0.

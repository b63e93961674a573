(** Model of evaluating parametric circuits and operations on a copy ([inplace=False], the default): base.py:382-409 and
    circuit.py:726-750.  The call in place is [op_eval] and [eval_circuit] in WorldModel.v.

    [copy.deepcopy] is assumed to succeed and to give objects with equal attributes.  Copies of a qubit keep its id and
    so compare equal to it (primitives.py:57-61); qubits are therefore kept as they are.  A bit is different: it has a
    value of its own, which measuring a qubit changes later.  The model says for every operation whose copies of the bits
    it refers to. *)
From Coq Require Import List Bool Arith.
From Verif Require Import Py RegisterModel WorldModel.
Import ListNotations.

(** [deepcopy(self)] of the circuit (circuit.py:743) copies every bit once, so the copied registers and operations refer to
    the same ones: [Common].  [deepcopy(self)] of the i-th operation (base.py:398) copies its bits again: [Own i]. *)
Inductive owner := Common | Own (i : nat).

Section Eval.
Variable P : Type.
Variable ptrue : P -> bool.
Notation world := (world P).
Notation opobj := (opobj P).

Record copied := mkCopied { cp_op : opobj; cp_bits : owner }.

(** ParametricOperation.eval with [inplace=False] (base.py:398-409): the operation is unchanged, its copy is returned. *)
Definition op_eval_copy (w : world) (given : option (list P)) (x : opobj) : res opobj :=
  match eval_loop ptrue w 0 given (o_params x) with
  | (ps, Ok _) => Ok (with_oparams x ps)
  | (_, Err e) => Err e
  end.

(** The loop of circuit.py:745-748 from index [i] on.  Operations without [eval] stay those of the copied circuit. *)
Fixpoint copy_ops (w : world) (i : nat) (given : list (list P)) (os : list nat) : res (list copied) :=
  match os with
  | [] => Ok []
  | o :: os' =>
      let? g := (match given with
                 | [] => Ok None
                 | _ => match nth_error given i with Some l => Ok (Some l) | None => Err IndexError end
                 end) in
      match nth_error (w_op w) o with
      | None => Err Undefined
      | Some x =>
          match nth_error (w_cls w) (o_cls x) with
          | None => Err Undefined
          | Some k =>
              let? z := (if has_params (k_kind k)
                         then let? y := op_eval_copy w g x in Ok (mkCopied y (Own i))
                         else Ok (mkCopied x Common)) in
              let? zs := copy_ops w (S i) given os' in
              Ok (z :: zs)
          end
      end
  end.

(** ParametricCircuit.eval with [inplace=False] (circuit.py:743-750): the operations of the returned circuit. *)
Definition eval_copy (w : world) (c : nat) (given : list (list P)) : res (list copied) :=
  match nth_error (w_circ w) c with
  | None => Err Undefined
  | Some x => if negb (c_par x) then Err AttributeError else copy_ops w 0 given (c_ops x)
  end.

(** Which operations a simulation applies (simulator.pyx:52-54, base.py:311-321, primitives.py:141-145): one whose
    condition names a bit with value 0 is passed over, a bit without a value counts as 1, and a measurement writes the
    outcomes into its bits (simulator.pyx:208-219).  [out i j]: the j-th outcome of the measurement at position [i]. *)
Definition values := owner -> item -> option bool.
Definition owner_eqb (a b : owner) : bool :=
  match a, b with Common, Common => true | Own i, Own j => Nat.eqb i j | _, _ => false end.
Definition put_value (f : values) (a : owner) (b : item) (x : bool) : values :=
  fun a' b' => if owner_eqb a' a then (if item_eqb b' b then Some x else f a' b') else f a' b'.
Definition unblocked (f : values) (z : copied) : bool :=
  forallb (fun b => match f (cp_bits z) b with Some x => x | None => true end)
          (match o_cond (cp_op z) with Some l => l | None => [] end).
Fixpoint put_all (f : values) (a : owner) (bs : list item) (xs : list bool) : values :=
  match bs, xs with
  | b :: bs', x :: xs' => put_all (put_value f a b x) a bs' xs'
  | _, _ => f
  end.
Definition is_measurement (w : world) (z : copied) : bool :=
  match nth_error (w_cls w) (o_cls (cp_op z)) with Some k => match k_kind k with KMeas => true | _ => false end | None => false end.
Definition measured (out : nat -> bool) (x : opobj) : list bool :=
  map out (seq 0 (List.length (match o_qubits x with Some l => l | None => [] end))).

(** One bit per operation: whether it is applied. *)
Fixpoint applied (w : world) (out : nat -> nat -> bool) (i : nat) (f : values) (zs : list copied) : list bool :=
  match zs with
  | [] => []
  | z :: zs' =>
      if unblocked f z then
        true :: applied w out (S i)
                  (if is_measurement w z
                   then put_all f (cp_bits z) (match o_bits (cp_op z) with Some l => l | None => [] end) (measured (out i) (cp_op z))
                   else f) zs'
      else false :: applied w out (S i) f zs'
  end.
End Eval.

(** Model of dwave/gate/qir/loader.py on the circuits, registers and contexts of WorldModel.v: loading a QIR module into a
    new circuit or into one that exists.  QirModel.v has the same loader on a circuit that is only a list of gates. *)
From Coq Require Import List ZArith String Bool Arith.
From Verif Require Import Py QirModel LinkModel RegisterModel WorldModel.
Import ListNotations.
Local Open Scope nat_scope.
Local Open Scope string_scope.

Section Load.
Variable P : Type.
Variable ptrue : P -> bool.
Variable peqb : P -> P -> bool.
Notation M := (WorldModel.M P).

(** PyQIR: an instruction of a basic block is a call, a return or something else; a function is a list of basic blocks, a
    module a list of functions.  Call arguments are doubles, qubits and results. *)
Inductive instr := ICall (k : QirModel.call P) | IRet | IOther.
Definition func : Type := list (list instr).

(** [getattr(ops, name)]: the operation classes of the library by name (operations/operations.py). *)
Fixpoint index_of (n : string) (l : list cls) : option nat :=
  match l with [] => None | x :: l' => if String.eqb n (k_name x) then Some 0 else option_map S (index_of n l') end.
Definition class_index (n : string) : option nat := index_of n library_classes.

Fixpoint repeatM (n : nat) (m : M unit) : M unit := match n with O => ret tt | S k => m ;; repeatM k m end.
(** [reg.q[i]] and [reg.c[i]] for several i. *)
Definition pick (r : register) (is : list nat) : M (list item) := lift (mapM (fun i => getitem (core r) (Z.of_nat i)) is).

(** [getattr(ops, name)( *params, qubits=[...])], 127-128.  Positional arguments come before [qubits] in the constructors'
    signatures; a second or third argument of a controlled class is its control and its target, which are not used when
    [qubits] is given. *)
Definition make (n : string) (ps : list P) (r : register) (qs : list nat) : M unit :=
  match class_index n with
  | None => raise AttributeError
  | Some k =>
      let! l := pick r qs in
      let! x := get_cls k in
      match k_kind x, ps with
      | KPlain, [] => unit_of (construct ptrue k None (AQ (Some l)))
      | KParam, [a] => unit_of (construct ptrue k (Some [PNum a]) (AQ (Some l)))
      | KCtrl, [] | KCtrl, [_] | KCtrl, [_; _] => unit_of (construct ptrue k None (AQ (Some l)))
      | KParCtrl, [a] | KParCtrl, [a; _] | KParCtrl, [a; _; _] => unit_of (construct ptrue k (Some [PNum a]) (AQ (Some l)))
      | _, _ => raise TypeError
      end
  end.
(** [circuit.unlock()] and the with statement around [body]. *)
Definition with_circuit (c : nat) (body : M unit) : M unit :=
  unlock c ;;
  let! a := context c in
  ctx_enter a ;;
  fun w => finally (body w) (ctx_exit a).

(** 122-128 *)
Definition load_gate (c : nat) (n : string) (ps : list P) (qs : list nat) : M unit :=
  let! k := WorldModel.num_qubits c in
  repeatM (S (maxi qs) - k) (add_qubit c ANone LNone) ;;
  with_circuit c (let! r := qubits c in make n ps r qs).

(** 136-152.  The name [qubits] is bound to the qubits, then [bits] to the bits. *)
Definition load_measurements (c : nat) (qs bs : list nat) : M unit :=
  let! k := num_bits c in
  repeatM (S (maxi bs) - k) (add_bit c ANone LNone) ;;
  with_circuit c
    (let! r := qubits c in
     let! l := pick r qs in
     let! r' := bits c in
     let! l' := pick r' bs in
     match class_index "Measurement" with
     | None => raise AttributeError
     | Some k => let! o := construct ptrue k None (AQ (Some l)) in store o l'
     end).

(** 93-128: one call; the measured qubits and bits are collected. *)
Definition load_one (c : nat) (k : QirModel.call P) (ms : list nat * list nat) : M (list nat * list nat) :=
  let (callee, args) := k in
  if negb (is_qis callee) then ret ms
  else match dget String.eqb callee from_qis with
       | None => raise TypeError
       | Some n =>
           let '(ps, qs, bs) := deconstruct P args in
           if String.eqb n "Measurement" then ret (fst ms ++ qs, snd ms ++ bs)%list
           else load_gate c n ps qs ;; ret ms
       end.

(** 99-102: the instructions of a block; whether a return was met. *)
Fixpoint load_block (c : nat) (l : list instr) (ms : list nat * list nat) : M ((list nat * list nat) * bool) :=
  match l with
  | [] => ret (ms, false)
  | IRet :: _ => ret (ms, true)
  | IOther :: l' => load_block c l' ms
  | ICall k :: l' => let! ms' := load_one c k ms in load_block c l' ms'
  end.
(** 93-97: the blocks of a function. *)
Fixpoint load_func (c : nat) (f : func) (ms : list nat * list nat) : M (list nat * list nat) :=
  match f with
  | [] => ret ms
  | b :: f' => let! (ms', done) := load_block c b ms in if done then ret ms' else load_func c f' ms'
  end.
(** 91 *)
Fixpoint load_funcs (c : nat) (fs : list func) (ms : list nat * list nat) : M (list nat * list nat) :=
  match fs with [] => ret ms | f :: fs' => let! ms' := load_func c f ms in load_funcs c fs' ms' end.

(** 83-133; [into] is the argument [circuit].  Returns the circuit. *)
Definition load_module (fs : list func) (into : option nat) : M nat :=
  let! c := match into with Some c => ret c | None => new_circuit false None None end in
  let! ms := load_funcs c fs ([], []) in
  match fst ms with [] => ret tt | _ => load_measurements c (fst ms) (snd ms) end ;;
  ret c.
End Load.

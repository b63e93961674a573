(** Model of circuits, contexts and operation objects: dwave/gate/circuit.py and
    dwave/gate/operations/base.py, on a heap of circuits, operations, qubits, bits, variables and
    contexts.  An object is the position at which it was created. *)
From Coq Require Import List ZArith String Bool Arith.
From Verif Require Import Py RegisterModel.
Import ListNotations.
Local Open Scope list_scope.
Local Open Scope nat_scope.
Set Implicit Arguments.

(** Labels of registers, qubits and bits.  [LNone] is Python's [None]; [LObj] is any other hashable
    object, which is true and equal only to itself. *)
Inductive label := LNone | LStr (s : string) | LInt (z : Z) | LObj (k : nat).

Definition label_eq_dec : forall a b : label, {a = b} + {a <> b}.
Proof. decide equality; try apply Z.eq_dec; try apply Nat.eq_dec; apply string_dec. Defined.

Definition label_eqb (a b : label) : bool := if label_eq_dec a b then true else false.

(** [bool(label)]. *)
Definition label_true (l : label) : bool :=
  match l with
  | LNone => false
  | LStr s => negb (String.eqb s ""%string)
  | LInt z => negb (Z.eqb z 0)
  | LObj _ => true
  end.

(** How an operation class is built (base.py:173, 352, 456, 599, 653). *)
Inductive kind := KPlain | KParam | KCtrl | KParCtrl | KMeas.

(** Class attributes: [__name__], [_num_qubits], [_num_control], [_num_target], [_num_params].
    [_num_qubits] of a controlled class is written when it is first read (base.py:525-529). *)
Record cls := mkCls {
  k_name : string;
  k_kind : kind;
  k_numq : option nat;
  k_ncontrol : option nat;
  k_ntarget : option nat;
  k_nparams : option nat
}.

(** One half of a circuit's registers: the dictionary of registers and the [cached_property] that
    concatenates them (circuit.py:80-81, 225-241). *)
Record side := mkSide { s_regs : list (label * register); s_cache : option register }.

(** A list with one element replaced. *)
Fixpoint set_nth {A} (n : nat) (x : A) (l : list A) : list A :=
  match l, n with
  | [], _ => []
  | _ :: t, O => x :: t
  | y :: t, S n' => y :: set_nth n' x t
  end.

Section World.
(** Numbers used as parameters: their truth value and their equality, both left open. *)
Variable P : Type.
Variable ptrue : P -> bool.
Variable peqb : P -> P -> bool.

Inductive param := PNum (p : P) | PVar (v : nat).

(** An operation object: class, [_qubits], [_num_qubits], [_parameters], [_control], [_target], [_bits],
    [_cond] (base.py:183-200, 364-370, 473-503, 663-672). *)
Record opobj := mkOp {
  o_cls : nat;
  o_qubits : option (list item);
  o_numq : option nat;
  o_params : list param;
  o_control : option (list item);
  o_target : option (list item);
  o_bits : option (list item);
  o_cond : option (list item)
}.

(** A circuit: [_circuit], registers, [_locked], [_circuit_context], whether it is a
    [ParametricCircuit], and then the variables of [_parameter_register] and its [_frozen]
    (circuit.py:71-92, 691-694).  The parameter register is kept as a list of variables: it is only
    ever filled by [__getitem__], which appends variables of different names (theorem C07). *)
Record circ := mkCirc {
  c_ops : list nat;
  c_q : side;
  c_b : side;
  c_locked : bool;
  c_ctx : option nat;
  c_par : bool;
  c_vars : list nat;
  c_pfrozen : bool
}.

Record world := mkWorld {
  w_cls : list cls;
  w_circ : list circ;
  w_op : list opobj;
  w_qubit : list label;                  (* Qubit: _label *)
  w_bit : list (label * option bool);    (* Bit: _label, _value *)
  w_var : list (string * option P);      (* Variable: _name, _value *)
  w_ctx : list (nat * bool);             (* CircuitContext: _circuit, _frozen *)
  w_active : option nat;                 (* CircuitContext._active_context *)
  w_exit : list nat                      (* CircuitContext.on_exit_functions: circuits to reset *)
}.

Definition set_cls w x := mkWorld x (w_circ w) (w_op w) (w_qubit w) (w_bit w) (w_var w) (w_ctx w) (w_active w) (w_exit w).
Definition set_circ w x := mkWorld (w_cls w) x (w_op w) (w_qubit w) (w_bit w) (w_var w) (w_ctx w) (w_active w) (w_exit w).
Definition set_op w x := mkWorld (w_cls w) (w_circ w) x (w_qubit w) (w_bit w) (w_var w) (w_ctx w) (w_active w) (w_exit w).
Definition set_qubit w x := mkWorld (w_cls w) (w_circ w) (w_op w) x (w_bit w) (w_var w) (w_ctx w) (w_active w) (w_exit w).
Definition set_bit w x := mkWorld (w_cls w) (w_circ w) (w_op w) (w_qubit w) x (w_var w) (w_ctx w) (w_active w) (w_exit w).
Definition set_var w x := mkWorld (w_cls w) (w_circ w) (w_op w) (w_qubit w) (w_bit w) x (w_ctx w) (w_active w) (w_exit w).
Definition set_ctx w x := mkWorld (w_cls w) (w_circ w) (w_op w) (w_qubit w) (w_bit w) (w_var w) x (w_active w) (w_exit w).
Definition set_active w x := mkWorld (w_cls w) (w_circ w) (w_op w) (w_qubit w) (w_bit w) (w_var w) (w_ctx w) x (w_exit w).
Definition set_exit w x := mkWorld (w_cls w) (w_circ w) (w_op w) (w_qubit w) (w_bit w) (w_var w) (w_ctx w) (w_active w) x.

Definition with_ops c x := mkCirc x (c_q c) (c_b c) (c_locked c) (c_ctx c) (c_par c) (c_vars c) (c_pfrozen c).
Definition with_q c x := mkCirc (c_ops c) x (c_b c) (c_locked c) (c_ctx c) (c_par c) (c_vars c) (c_pfrozen c).
Definition with_b c x := mkCirc (c_ops c) (c_q c) x (c_locked c) (c_ctx c) (c_par c) (c_vars c) (c_pfrozen c).
Definition with_locked c x := mkCirc (c_ops c) (c_q c) (c_b c) x (c_ctx c) (c_par c) (c_vars c) (c_pfrozen c).
Definition with_ctx c x := mkCirc (c_ops c) (c_q c) (c_b c) (c_locked c) x (c_par c) (c_vars c) (c_pfrozen c).
Definition with_vars c x := mkCirc (c_ops c) (c_q c) (c_b c) (c_locked c) (c_ctx c) (c_par c) x (c_pfrozen c).
Definition with_pfrozen c x := mkCirc (c_ops c) (c_q c) (c_b c) (c_locked c) (c_ctx c) (c_par c) (c_vars c) x.

Definition with_oqubits o x := mkOp (o_cls o) x (o_numq o) (o_params o) (o_control o) (o_target o) (o_bits o) (o_cond o).
Definition with_oparams o x := mkOp (o_cls o) (o_qubits o) (o_numq o) x (o_control o) (o_target o) (o_bits o) (o_cond o).
Definition with_obits o x := mkOp (o_cls o) (o_qubits o) (o_numq o) (o_params o) (o_control o) (o_target o) x (o_cond o).
Definition with_ocond o x := mkOp (o_cls o) (o_qubits o) (o_numq o) (o_params o) (o_control o) (o_target o) (o_bits o) x.

(** Code that reads and writes the heap and may raise; the heap a failing call leaves is kept. *)
Definition M (A : Type) := world -> world * res A.
Definition ret {A} (a : A) : M A := fun w => (w, Ok a).
Definition raise {A} (e : exn) : M A := fun w => (w, Err e).
Definition mbind {A B} (m : M A) (k : A -> M B) : M B :=
  fun w => match m w with (w', Ok a) => k a w' | (w', Err e) => (w', Err e) end.
Notation "'let!' x ':=' m 'in' k" := (mbind m (fun x => k)) (at level 200, x pattern, right associativity).
Notation "m ';;' k" := (mbind m (fun _ => k)) (at level 199, right associativity).
Definition lift {A} (r : res A) : M A := fun w => (w, r).
Definition read {A} (f : world -> A) : M A := fun w => (w, Ok (f w)).
Definition when (b : bool) (m : M unit) : M unit := if b then m else ret tt.

Fixpoint iterM {A} (f : A -> M unit) (l : list A) : M unit :=
  match l with [] => ret tt | x :: l' => f x ;; iterM f l' end.

(** Reading an object.  [Undefined]: the program names an object that does not exist, which no Python
    program can do. *)
Definition the {A} (o : option A) : M A := match o with Some a => ret a | None => raise Undefined end.
Definition get_circ (c : nat) : M circ := fun w => the (nth_error (w_circ w) c) w.
Definition get_op (o : nat) : M opobj := fun w => the (nth_error (w_op w) o) w.
Definition get_cls (k : nat) : M cls := fun w => the (nth_error (w_cls w) k) w.
Definition get_ctx (x : nat) : M (nat * bool) := fun w => the (nth_error (w_ctx w) x) w.
Definition put_circ (c : nat) (x : circ) : M unit := fun w => (set_circ w (set_nth c x (w_circ w)), Ok tt).
Definition put_op (o : nat) (x : opobj) : M unit := fun w => (set_op w (set_nth o x (w_op w)), Ok tt).
Definition upd_circ (c : nat) (f : circ -> circ) : M unit :=
  let! x := get_circ c in put_circ c (f x).
Definition upd_op (o : nat) (f : opobj -> opobj) : M unit :=
  let! x := get_op o in put_op o (f x).

(** Does an object compare equal to an integer?  A bit does when it holds that value
    (primitives.py:104-110). *)
Definition numeq (bits : list (label * option bool)) (it : item) (z : Z) : bool :=
  match it with
  | IInt a => Z.eqb a z
  | IBit b =>
      match nth_error bits b with
      | Some (_, Some v) => Z.eqb (if v then 1 else 0) z
      | _ => false
      end
  | _ => false
  end.

(** ** Primitives (primitives.py) *)

(** primitives.py:38-40, 79-82, 158-161 *)
Definition new_qubit (l : label) : M nat :=
  fun w => (set_qubit w (w_qubit w ++ [l]), Ok (List.length (w_qubit w))).
Definition new_bit (l : label) : M nat :=
  fun w => (set_bit w (w_bit w ++ [(l, None)]), Ok (List.length (w_bit w))).
Definition new_var (s : string) : M nat :=
  fun w => (set_var w (w_var w ++ [(s, None)]), Ok (List.length (w_var w))).

(** primitives.py:122-139; [v] is [bool(value)]. *)
Definition bit_set (b : nat) (v force : bool) : M unit := fun w =>
  match nth_error (w_bit w) b with
  | None => (w, Err Undefined)
  | Some (l, old) =>
      if match old with Some _ => negb force | None => false end then (w, Err ValueError)
      else (set_bit w (set_nth b (l, Some v) (w_bit w)), Ok tt)
  end.
Definition bit_reset (b : nat) : M unit := fun w =>
  match nth_error (w_bit w) b with
  | None => (w, Err Undefined)
  | Some (l, _) => (set_bit w (set_nth b (l, None) (w_bit w)), Ok tt)
  end.

(** primitives.py:141-145 *)
Definition bit_true (w : world) (b : nat) : bool :=
  match nth_error (w_bit w) b with Some (_, Some false) => false | _ => true end.

(** primitives.py:192-202 *)
Definition var_put (v : nat) (x : option P) : M unit := fun w =>
  match nth_error (w_var w) v with
  | None => (w, Err Undefined)
  | Some (s, _) => (set_var w (set_nth v (s, x) (w_var w)), Ok tt)
  end.
Definition var_value (w : world) (v : nat) : option P :=
  match nth_error (w_var w) v with Some (_, x) => x | None => None end.

(** ** Registers of a circuit *)

(** The loop of circuit.py:228-230 and 237-239. *)
Fixpoint join (bits : list (label * option bool)) (acc : register) (rs : list register) : res register :=
  match rs with
  | [] => Ok acc
  | r :: rs' => let? acc' := register_add (numeq bits) acc r in join bits acc' rs'
  end.

Definition concat_regs (bits : list (label * option bool)) (s : side) : res register :=
  join bits (mkRegister empty_reg (Some false)) (map snd (s_regs s)).

(** circuit.py:225-232 with [functools.cached_property]. *)
Definition qubits (c : nat) : M register :=
  let! x := get_circ c in
  match s_cache (c_q x) with
  | Some r => ret r
  | None =>
      let! bs := read w_bit in
      let! r := lift (concat_regs bs (c_q x)) in
      put_circ c (with_q x (mkSide (s_regs (c_q x)) (Some r))) ;; ret r
  end.

(** circuit.py:234-241 *)
Definition bits (c : nat) : M register :=
  let! x := get_circ c in
  match s_cache (c_b x) with
  | Some r => ret r
  | None =>
      let! bs := read w_bit in
      let! r := lift (concat_regs bs (c_b x)) in
      put_circ c (with_b x (mkSide (s_regs (c_b x)) (Some r))) ;; ret r
  end.

Definition num_qubits (c : nat) : M nat := let! r := qubits c in ret (stop (core r)).
Definition num_bits (c : nat) : M nat := let! r := bits c in ret (stop (core r)).

Definition drop_qcache (c : nat) : M unit :=
  upd_circ c (fun x => with_q x (mkSide (s_regs (c_q x)) None)).
Definition drop_bcache (c : nat) : M unit :=
  upd_circ c (fun x => with_b x (mkSide (s_regs (c_b x)) None)).

Definition regmem (l : label) (s : side) : bool := dmem label_eqb l (s_regs s).
Definition regget (l : label) (s : side) : M register :=
  match dget label_eqb l (s_regs s) with Some r => ret r | None => raise KeyError end.
Definition put_qreg (c : nat) (l : label) (r : register) : M unit :=
  upd_circ c (fun x => with_q x (mkSide (dset label_eqb l r (s_regs (c_q x))) (s_cache (c_q x)))).
Definition put_creg (c : nat) (l : label) (r : register) : M unit :=
  upd_circ c (fun x => with_b x (mkSide (dset label_eqb l r (s_regs (c_b x))) (s_cache (c_b x)))).

(** [(Qubit(str(i)) for i in range(a, a + n))] *)
Fixpoint new_qubits (a n : nat) : M (list item) :=
  match n with
  | O => ret []
  | S n' => let! q := new_qubit (LStr (py_str a)) in
            let! qs := new_qubits (S a) n' in ret (IQubit q :: qs)
  end.
Fixpoint new_bits (a n : nat) : M (list item) :=
  match n with
  | O => ret []
  | S n' => let! b := new_bit (LStr (py_str a)) in
            let! bs := new_bits (S a) n' in ret (IBit b :: bs)
  end.

(** circuit.py:424-444; [LNone]: no label given. *)
Definition add_qregister (c : nat) (n : nat) (l : label) : M unit :=
  let! x := get_circ c in
  let l' := match l with
            | LNone => LStr (String.append "qreg"%string (py_str (List.length (s_regs (c_q x)))))
            | _ => l
            end in
  if regmem l' (c_q x) then raise ValueError
  else
    let! k := num_qubits c in
    let! qs := new_qubits k n in
    let! bs := read w_bit in
    let! r := lift (new_register (numeq bs) qs) in
    put_qreg c l' r ;;
    drop_qcache c.

(** circuit.py:446-466 *)
Definition add_cregister (c : nat) (n : nat) (l : label) : M unit :=
  let! x := get_circ c in
  let l' := match l with
            | LNone => LStr (String.append "creg"%string (py_str (List.length (s_regs (c_b x)))))
            | _ => l
            end in
  if regmem l' (c_b x) then raise ValueError
  else
    let! k := num_bits c in
    let! qs := new_bits k n in
    let! bs := read w_bit in
    let! r := lift (new_register (numeq bs) qs) in
    put_creg c l' r ;;
    drop_bcache c.

(** The first label of a dictionary, [list(d)[0]]. *)
Definition first_label (s : side) : M label :=
  match s_regs s with [] => raise IndexError | (l, _) :: _ => ret l end.

(** The argument of [add_qubit] and [add_bit]: nothing, a qubit (bit), or something else. *)
Inductive arg := ANone | AItem (i : nat) | ABad.

(** The qubit (bit) a program hands over exists. *)
Definition qubit_exists (a : arg) : M unit :=
  match a with AItem q => fun w => (the (nth_error (w_qubit w) q) ;; ret tt) w | _ => ret tt end.
Definition bit_exists (a : arg) : M unit :=
  match a with AItem b => fun w => (the (nth_error (w_bit w) b) ;; ret tt) w | _ => ret tt end.

(** circuit.py:362-392 *)
Definition add_qubit (c : nat) (a : arg) (l : label) : M unit :=
  match a with
  | ABad => raise TypeError
  | _ =>
    qubit_exists a ;;
    let! x := get_circ c in
    let! l' :=
      match l with
      | LNone =>
          when (match s_regs (c_q x) with [] => true | _ => false end) (add_qregister c 0 LNone) ;;
          let! y := get_circ c in first_label (c_q y)
      | _ => when (negb (regmem l (c_q x))) (add_qregister c 0 l) ;; ret l
      end in
    let! v := qubits c in
    let! dup := lift (count (core v) (match a with AItem q => IQubit q | _ => INone end)) in
    if dup then raise ValueError
    else
      let! y := get_circ c in
      let! r := regget l' (c_q y) in
      let! q := match a with
                | AItem q => ret q
                | _ => let! k := num_qubits c in new_qubit (LStr (py_str k))
                end in
      let! bs := read w_bit in
      let (r', o) := add (numeq bs) r [IQubit q] in
      put_qreg c l' r' ;; lift o ;;
      drop_qcache c
  end.

(** circuit.py:394-422.  A bit holding 0 is false, so [bit or Bit(...)] makes a new one. *)
Definition add_bit (c : nat) (a : arg) (l : label) : M unit :=
  match a with
  | ABad => raise TypeError
  | _ =>
    bit_exists a ;;
    let! x := get_circ c in
    let! l' :=
      match l with
      | LNone =>
          when (match s_regs (c_b x) with [] => true | _ => false end) (add_cregister c 0 LNone) ;;
          let! y := get_circ c in first_label (c_b y)
      | _ => when (negb (regmem l (c_b x))) (add_cregister c 0 l) ;; ret l
      end in
    let! v := bits c in
    let! dup := if Nat.eqb (stop (core v)) 0 then ret false
                else lift (count (core v) (match a with AItem q => IBit q | _ => INone end)) in
    if dup then raise ValueError
    else
      let! y := get_circ c in
      let! r := regget l' (c_b y) in
      let! given := read (fun w => match a with AItem b => bit_true w b | _ => false end) in
      let! b := match a with
                | AItem b => if given then ret b
                             else let! k := num_bits c in new_bit (LStr (py_str k))
                | _ => let! k := num_bits c in new_bit (LStr (py_str k))
                end in
      let! bs := read w_bit in
      let (r', o) := add (numeq bs) r [IBit b] in
      put_creg c l' r' ;; lift o ;;
      drop_bcache c
  end.

(** [circuit.qregisters[l].add(items)]: the registers are handed out by [Circuit.qregisters]
    (circuit.py:157-164) and can be changed directly.  The same for classical registers. *)
Definition qreg_add (c : nat) (l : label) (vs : list item) : M unit :=
  let! x := get_circ c in
  let! r := regget l (c_q x) in
  let! bs := read w_bit in
  let (r', o) := add (numeq bs) r vs in
  put_qreg c l r' ;; lift o.
Definition creg_add (c : nat) (l : label) (vs : list item) : M unit :=
  let! x := get_circ c in
  let! r := regget l (c_b x) in
  let! bs := read w_bit in
  let (r', o) := add (numeq bs) r vs in
  put_creg c l r' ;; lift o.

(** [circuit.qregisters[l].freeze()] (registers.py:70-72, 138-140, 169-171) *)
Definition qreg_freeze (c : nat) (l : label) : M unit :=
  let! x := get_circ c in
  let! r := regget l (c_q x) in
  put_qreg c l (freeze r).
Definition creg_freeze (c : nat) (l : label) : M unit :=
  let! x := get_circ c in
  let! r := regget l (c_b x) in
  put_creg c l (freeze r).

(** circuit.py:71-92, 691-694 *)
Definition new_circuit (par : bool) (nq nb : option nat) : M nat :=
  let! c := read (fun w => List.length (w_circ w)) in
  (fun w => (set_circ w (w_circ w ++ [mkCirc [] (mkSide [] None) (mkSide [] None) false None par [] false]), Ok tt)) ;;
  match nq with Some n => add_qregister c n LNone | None => ret tt end ;;
  match nb with Some n => add_cregister c n LNone | None => ret tt end ;;
  ret c.

(** circuit.py:330-340 and 721-724 *)
Definition lock (c : nat) : M unit := upd_circ c (fun x => with_locked x true).
Definition unlock (c : nat) : M unit :=
  upd_circ c (fun x => with_locked (if c_par x then with_pfrozen x false else x) false).

(** [bit.reset()] on an item of a classical register; an integer has no such method. *)
Definition item_reset (v : item) : M unit :=
  match v with
  | IBit b => bit_reset b
  | _ => raise AttributeError
  end.

(** circuit.py:342-360 *)
Definition reset (c : nat) (keep : bool) : M unit :=
  upd_circ c (fun x => with_ctx (with_ops x []) None) ;;
  (if keep then
     let! r := bits c in
     let! l := lift (items (core r)) in
     iterM item_reset l
   else
     upd_circ c (fun x => with_b (with_q x (mkSide [] (s_cache (c_q x)))) (mkSide [] (s_cache (c_b x))))) ;;
  unlock c.

(** The attribute [label] of an item of a register; only qubits and bits have one (primitives.py:42-50,
    84-92). *)
Definition item_label (w : world) (v : item) : res label :=
  match v with
  | IQubit q => match nth_error (w_qubit w) q with Some l => Ok l | None => Err Undefined end
  | IBit b => match nth_error (w_bit w) b with Some (l, _) => Ok l | None => Err Undefined end
  | _ => Err AttributeError
  end.

(** The loop of circuit.py:494-501 and 550-557; [found] is the list collected so far. *)
Fixpoint scan (w : world) (l : label) (all : bool) (found : list item) (its : list item) : res (list item) :=
  match its with
  | [] => match found with [] => Err ValueError | _ => Ok found end
  | v :: its' =>
      let? l' := item_label w v in
      if label_eqb l' l then (if all then scan w l all (found ++ [v]) its' else Ok [v])
      else scan w l all found its'
  end.

(** The items searched: those of the register named, or of all registers (circuit.py:489-492). *)
Definition searched (s : side) (rl : label) : res (list item) :=
  if label_true rl then
    match dget label_eqb rl (s_regs s) with Some r => items (core r) | None => Err KeyError end
  else let? ls := mapM (fun p => items (core (snd p))) (s_regs s) in Ok (List.concat ls).

(** circuit.py:473-503 *)
Definition get_qubit (c : nat) (l rl : label) (all : bool) : M (list item) :=
  let! x := get_circ c in
  let! its := lift (searched (c_q x) rl) in
  fun w => (w, scan w l all [] its).

(** circuit.py:529-559 *)
Definition get_bit (c : nat) (l rl : label) (all : bool) : M (list item) :=
  let! x := get_circ c in
  let! its := lift (searched (c_b x) rl) in
  fun w => (w, scan w l all [] its).

(** circuit.py:505-527: position of the register, its label, position in the register. *)
Fixpoint find_in (i : nat) (v : item) (rs : list (label * register)) : res (nat * label * Z) :=
  match rs with
  | [] => Err ValueError
  | (l, r) :: rs' =>
      let? b := count (core r) v in
      if b then let? k := snd (index plain_eq (core r) v false) in Ok (i, l, k)
      else find_in (S i) v rs'
  end.
Definition find_qubit (c : nat) (v : item) : M (nat * label * Z) :=
  let! x := get_circ c in lift (find_in 0 v (s_regs (c_q x))).
(** circuit.py:561-583 *)
Definition find_bit (c : nat) (v : item) : M (nat * label * Z) :=
  let! x := get_circ c in lift (find_in 0 v (s_regs (c_b x))).

(** ** Operations *)

(** [Operation.num_qubits] and [ControlledOperation.num_qubits] read on a class (base.py:286-295,
    525-541). *)
Definition nonzero (o : option nat) : bool := match o with Some (S _) => true | _ => false end.
Definition settle (k : nat) : M unit :=
  let! x := get_cls k in
  match k_kind x with
  | KCtrl | KParCtrl =>
      if negb (nonzero (k_numq x)) && nonzero (k_ncontrol x) && nonzero (k_ntarget x) then
        match k_ncontrol x, k_ntarget x with
        | Some a, Some b => fun w =>
            (set_cls w (set_nth k (mkCls (k_name x) (k_kind x) (Some (a + b)) (k_ncontrol x) (k_ntarget x) (k_nparams x)) (w_cls w)), Ok tt)
        | _, _ => ret tt
        end
      else ret tt
  | _ => ret tt
  end.
Definition cls_num_qubits (k : nat) : M nat :=
  settle k ;;
  let! x := get_cls k in
  match k_numq x with Some n => ret n | None => raise AttributeError end.

(** base.py:202-221 *)
Definition check_qubits (k : nat) (qs : list item) : M unit :=
  let! x := get_cls k in
  match k_numq x with
  | None => ret tt
  | Some _ =>
      let! n := cls_num_qubits k in
      if Nat.eqb (List.length qs) n then ret tt else raise ValueError
  end.

Definition has_params (k : kind) : bool := match k with KParam | KParCtrl => true | _ => false end.

(** The loop of base.py:400-407; the list as it is when the loop stops, and how it stopped. *)
Fixpoint eval_loop (w : world) (i : nat) (given : option (list P)) (ps : list param)
  : list param * res unit :=
  match ps with
  | [] => ([], Ok tt)
  | PNum p :: ps' => let (r, o) := eval_loop w (S i) given ps' in (PNum p :: r, o)
  | PVar v :: ps' =>
      match match given with
            | Some ((_ :: _) as l) => match nth_error l i with Some p => Ok p | None => Err IndexError end
            | _ => match var_value w v with
                   | Some p => if ptrue p then Ok p else Err ValueError
                   | None => Err ValueError
                   end
            end with
      | Ok p => let (r, o) := eval_loop w (S i) given ps' in (PNum p :: r, o)
      | Err e => (PVar v :: ps', Err e)
      end
  end.

(** base.py:382-409 with [inplace=True] *)
Definition op_eval (o : nat) (given : option (list P)) : M unit :=
  let! x := get_op o in
  let! r := read (fun w => eval_loop w 0 given (o_params x)) in
  put_op o (with_oparams x (fst r)) ;; lift (snd r).

(** circuit.py:757-760 and 301-304 *)
Definition parametric (x : circ) : bool := c_par x && match c_vars x with [] => false | _ => true end.

(** circuit.py:197-199 *)
Definition check_own (c : nat) (v : item) : M unit :=
  let! r := qubits c in
  let! b := lift (count (core r) v) in
  if b then ret tt else raise ValueError.

Definition oqubits (o : opobj) : list item := match o_qubits o with Some l => l | None => [] end.

(** circuit.py:180-201 *)
Definition append_op (c o : nat) : M unit :=
  let! x := get_circ c in
  if c_locked x then raise CircuitError
  else
    let! y := get_op o in
    let! k := get_cls (o_cls y) in
    when (negb (parametric x) && has_params (k_kind k)) (op_eval o None) ;;
    iterM (check_own c) (oqubits y) ;;
    upd_circ c (fun x => with_ops x (c_ops x ++ [o])).

(** circuit.py:203-210 *)
Definition extend_ops (c : nat) (os : list nat) : M unit := iterM (append_op c) os.

(** Arguments of a class: [K(qubits)] (for controlled classes the keyword [qubits]) or
    [K(control, target)], and the parameters if any.  A single qubit is a list of one. *)
Inductive qargs := AQ (qs : option (list item)) | ACT (control target : option (list item)).

Definition nonempty {A} (o : option (list A)) : option (list A) :=
  match o with Some (_ :: _) => o | _ => None end.

(** base.py:183-200; [o] is the object under construction. *)
Definition op_init (k o : nat) (qs : option (list item)) : M unit :=
  let! act := read w_active in
  match qs with
  | Some l =>
      check_qubits k l ;;
      let! x := get_cls k in
      upd_op o (fun y => mkOp (o_cls y) (Some l)
                              (match k_numq x with Some n => Some n | None => Some (List.length l) end)
                              (o_params y) (o_control y) (o_target y) (o_bits y) None)
  | None =>
      match act with
      | Some _ => raise TypeError
      | None =>
          let! x := get_cls k in
          upd_op o (fun y => mkOp (o_cls y) None (k_numq x) (o_params y) (o_control y) (o_target y) (o_bits y) None)
      end
  end ;;
  match act with
  | None => ret tt
  | Some a =>
      let! cx := get_ctx a in
      if snd cx then ret tt else append_op (fst cx) o
  end.

(** base.py:419-440 *)
Definition check_params (x : cls) (ps : list param) : M unit :=
  match k_nparams x with
  | Some n => if Nat.eqb (List.length ps) n then ret tt else raise ValueError
  | None => raise ValueError
  end.

(** base.py:364-370 *)
Definition par_init (x : cls) (k o : nat) (ps : list param) (qs : option (list item)) : M unit :=
  check_params x ps ;;
  upd_op o (fun y => with_oparams y ps) ;;
  op_init k o qs.

(** [l[:n]] and [l[n:]] where [n] may be [None]. *)
Definition take (n : option nat) (l : list item) := match n with Some n => firstn n l | None => l end.
Definition drop (n : option nat) (l : list item) := match n with Some n => skipn n l | None => l end.

(** base.py:473-500: control, target and all qubits. *)
Definition split_args (x : cls) (a : qargs) : option (list item) * option (list item) * option (list item) :=
  let ct control target :=
    let control' := nonempty control in
    let target' := nonempty target in
    (control', target', match control', target' with Some c, Some t => Some (c ++ t) | _, _ => None end) in
  match a with
  | AQ (Some (q :: l)) => (Some (take (k_ncontrol x) (q :: l)), Some (drop (k_ncontrol x) (q :: l)), Some (q :: l))
  | AQ _ => ct None None
  | ACT control target => ct control target
  end.

(** Constructing an operation: [K(...)] (base.py:183-200, 364-370, 473-503, 615-626, 663-672).  Wrong
    kinds of arguments do not fit the constructor's signature. *)
Definition construct (k : nat) (ps : option (list param)) (a : qargs) : M nat :=
  let! x := get_cls k in
  let! o := read (fun w => List.length (w_op w)) in
  (fun w => (set_op w (w_op w ++ [mkOp k None (k_numq x) [] None None None None]), Ok tt)) ;;
  match k_kind x, ps, a with
  | KPlain, None, AQ qs | KMeas, None, AQ qs => op_init k o qs
  | KParam, Some l, AQ qs => par_init x k o l qs
  | KCtrl, None, _ =>
      let '(ctl, tgt, qs) := split_args x a in
      upd_op o (fun y => mkOp (o_cls y) (o_qubits y) (o_numq y) (o_params y) ctl tgt (o_bits y) (o_cond y)) ;;
      op_init k o qs
  | KParCtrl, Some l, _ =>
      let '(ctl, tgt, qs) := split_args x a in
      upd_op o (fun y => mkOp (o_cls y) (o_qubits y) (o_numq y) (o_params y) ctl tgt (o_bits y) (o_cond y)) ;;
      par_init x k o l qs ;;
      upd_op o (fun y => with_oparams y l)
  | _, _, _ => raise TypeError
  end ;;
  ret o.

(** [x or y] on sequences. *)
Definition orelse (a b : option (list item)) : option (list item) :=
  match nonempty a with Some l => Some l | None => b end.

(** Calling an operation object (base.py:240-251, 442-453, 505-523, 628-641). *)
Definition call_op (o : nat) (a : qargs) : M nat :=
  let! x := get_op o in
  let! k := get_cls (o_cls x) in
  match k_kind k, a with
  | KPlain, AQ qs | KMeas, AQ qs => construct (o_cls x) None (AQ (orelse qs (o_qubits x)))
  | KParam, AQ qs => construct (o_cls x) (Some (o_params x)) (AQ (orelse qs (o_qubits x)))
  | KCtrl, ACT ctl tgt => construct (o_cls x) None (ACT (orelse ctl (o_control x)) (orelse tgt (o_target x)))
  | KParCtrl, ACT ctl tgt =>
      construct (o_cls x) (Some (o_params x)) (ACT (orelse ctl (o_control x)) (orelse tgt (o_target x)))
  | _, _ => raise TypeError
  end.

(** base.py:302-309 *)
Definition set_qubits (o : nat) (qs : list item) : M unit :=
  let! x := get_op o in
  check_qubits (o_cls x) qs ;;
  upd_op o (fun y => with_oqubits y (Some qs)).

(** base.py:343-349 *)
Definition conditional (o : nat) (bs : list item) : M unit :=
  upd_op o (fun y => with_ocond y (Some bs)).

(** Measurement.__or__ (base.py:675-689).  Only measurements have it. *)
Definition store (o : nat) (bs : list item) : M unit :=
  let! x := get_op o in
  let! k := get_cls (o_cls x) in
  match k_kind k with
  | KMeas =>
      match o_numq x with
      | None => raise TypeError
      | Some n => if Nat.ltb (List.length bs) n then raise ValueError
                  else put_op o (with_obits x (Some (firstn n bs)))
      end
  | _ => raise TypeError
  end.

(** Equality of parameters, of lists, of tuples of qubits (primitives.py:174-180). *)
Definition param_eqb (w : world) (a b : param) : bool :=
  let vn v p := match var_value w v with Some q => ptrue q && peqb q p | None => false end in
  match a, b with
  | PNum p, PNum q => peqb p q
  | PVar u, PVar v =>
      match nth_error (w_var w) u, nth_error (w_var w) v with
      | Some (s, _), Some (t, _) => String.eqb s t
      | _, _ => false
      end
  | PVar v, PNum p | PNum p, PVar v => vn v p
  end.
Fixpoint list_eqb {A} (f : A -> A -> bool) (a b : list A) : bool :=
  match a, b with
  | [], [] => true
  | x :: a', y :: b' => f x y && list_eqb f a' b'
  | _, _ => false
  end.
Definition oqubits_eqb (w : world) (a b : option (list item)) : bool :=
  match a, b with
  | None, None => true
  | Some x, Some y => list_eqb (py_eqb (numeq (w_bit w))) x y
  | _, _ => false
  end.

(** [el == op] (base.py:253-256, 372-375). *)
Definition op_eq (el op : nat) : M bool :=
  let! x := get_op el in
  let! y := get_op op in
  let! kx := get_cls (o_cls x) in
  let! ky := get_cls (o_cls y) in
  let base w := String.eqb (k_name kx) (k_name ky) && oqubits_eqb w (o_qubits y) (o_qubits x) in
  if has_params (k_kind kx) then
    if has_params (k_kind ky) then
      read (fun w => list_eqb (param_eqb w) (o_params y) (o_params x) && base w)
    else raise AttributeError
  else read base.

(** [list.index], which takes an object to be equal to itself. *)
Fixpoint index_of (os : list nat) (op : nat) (i : nat) : M nat :=
  match os with
  | [] => raise ValueError
  | el :: os' =>
      let! b := (if Nat.eqb el op then ret true else op_eq el op) in
      if b then ret i else index_of os' op (S i)
  end.

Fixpoint del_nth {A} (n : nat) (l : list A) : list A :=
  match l, n with [], _ => [] | _ :: t, O => t | y :: t, S n' => y :: del_nth n' t end.

(** circuit.py:212-223 *)
Definition remove_op (c op : nat) : M unit :=
  let! x := get_circ c in
  let! i := index_of (c_ops x) op 0 in
  upd_circ c (fun x => with_ops x (del_nth i (c_ops x))).

(** ** Parametric circuits and circuit calls *)

(** [circuit.context] hands out the parameter register; [p[i]] (registers.py:195-210). *)
Fixpoint grow_vars (a n : nat) : M (list nat) :=
  match n with
  | O => ret []
  | S n' => let! v := new_var (py_str a) in let! vs := grow_vars (S a) n' in ret (v :: vs)
  end.
Definition get_param (c i : nat) : M nat :=
  let! x := get_circ c in
  if negb (c_par x) then raise AttributeError
  else
    let n := List.length (c_vars x) in
    let! vs := (if Nat.leb n i && negb (c_pfrozen x) then grow_vars n (S i - n) else ret []) in
    upd_circ c (fun x => with_vars x (c_vars x ++ vs)) ;;
    match nth_error (c_vars x ++ vs) i with Some v => ret v | None => raise IndexError end.

(** The [bits] argument of a circuit call: nothing, one bit, or a sequence. *)
Inductive bargs := BNone | BOne (b : nat) | BList (l : list item).
Definition bargs_list (w : world) (b : bargs) : option (list item) :=
  match b with
  | BNone => None
  | BOne b => if bit_true w b then Some [IBit b] else None
  | BList [] => None
  | BList l => Some l
  end.

(** [dict(zip(ks, vs))] and its lookup. *)
Definition zip_dict (ks vs : list item) : list (item * item) :=
  fold_left (fun d p => dset item_eqb (fst p) (snd p) d) (combine ks vs) [].
Definition look (d : list (item * item)) (k : item) : res item :=
  match dget item_eqb k d with Some v => Ok v | None => Err KeyError end.

(** The arguments of [op.__class__(<star>mapped)]: at most two fit (circuit.py:151-152). *)
Definition star_args (l : list item) : M qargs :=
  match l with
  | [] => ret (ACT None None)
  | [a] => ret (ACT (Some [a]) None)
  | [a; b] => ret (ACT (Some [a]) (Some [b]))
  | _ => raise TypeError
  end.

(** The body of the loop of circuit.py:127-155. *)
Definition replay (qmap : list (item * item)) (bmap : option (list (item * item))) (o : nat) : M unit :=
  let! x := get_op o in
  let! k := get_cls (o_cls x) in
  let! mq := lift (mapM (look qmap) (oqubits x)) in
  match k_kind k, bmap with
  | KMeas, Some d =>
      let! mb := lift (mapM (look d) (match o_bits x with Some l => l | None => [] end)) in
      let! o' := construct (o_cls x) None (AQ (Some mq)) in
      store o' mb
  | KParam, _ | KParCtrl, _ => construct (o_cls x) (Some (o_params x)) (AQ (Some mq)) ;; ret tt
  | KCtrl, _ => let! a := star_args mq in construct (o_cls x) None a ;; ret tt
  | _, _ => construct (o_cls x) None (AQ (Some mq)) ;; ret tt
  end.

(** circuit.py:94-155 *)
Definition call_circuit (t : nat) (qs : list item) (ba : bargs) : M unit :=
  let! act := read w_active in
  match act with
  | None => raise CircuitError
  | Some a =>
      let! cx := get_ctx a in
      if Nat.eqb (fst cx) t then raise TypeError
      else
        let! vq := qubits t in
        if negb (Nat.eqb (List.length qs) (stop (core vq))) then raise ValueError
        else
          let! bl := read (fun w => bargs_list w ba) in
          let! bmap := match bl with
                       | None => ret None
                       | Some l =>
                           let! vb := bits t in
                           if negb (Nat.eqb (List.length l) (stop (core vb))) then raise ValueError
                           else let! ks := lift (items (core vb)) in ret (Some (zip_dict ks l))
                       end in
          let! ks := lift (items (core vq)) in
          let! x := get_circ t in
          iterM (replay (zip_dict ks qs) bmap) (c_ops x)
  end.

(** The loop of circuit.py:712-714. *)
Fixpoint set_vars (vs : list nat) (ps : list P) : M unit :=
  match vs, ps with
  | [], _ => ret tt
  | _ :: _, [] => raise IndexError
  | v :: vs', p :: ps' => var_put v (Some p) ;; set_vars vs' ps'
  end.

(** circuit.py:752-755 *)
Definition reset_variables (c : nat) : M unit :=
  let! x := get_circ c in iterM (fun v => var_put v None) (c_vars x).

(** circuit.py:696-719.  On a circuit that is not parametric the arguments do not fit. *)
Definition call_parametric (t : nat) (ps : list P) (qs : list item) (ba : bargs) : M unit :=
  let! x := get_circ t in
  if negb (c_par x) then raise TypeError
  else
    let! act := read w_active in
    match act with Some _ => set_vars (c_vars x) ps | None => ret tt end ;;
    (fun w => (set_exit w (w_exit w ++ [t]), Ok tt)) ;;
    call_circuit t qs ba.

(** circuit.py:94, 696: which of the two a circuit has. *)
Definition call_plain (t : nat) (qs : list item) (ba : bargs) : M unit :=
  let! x := get_circ t in
  if c_par x then raise TypeError else call_circuit t qs ba.

(** ParametricCircuit.eval with [inplace=True] (circuit.py:726-750). *)
Fixpoint eval_ops (i : nat) (given : list (list P)) (os : list nat) : M unit :=
  match os with
  | [] => ret tt
  | o :: os' =>
      let! g := (match given with
                 | [] => ret None
                 | _ => match nth_error given i with Some l => ret (Some l) | None => raise IndexError end
                 end) in
      let! x := get_op o in
      let! k := get_cls (o_cls x) in
      when (has_params (k_kind k)) (op_eval o g) ;;
      eval_ops (S i) given os'
  end.
Definition eval_circuit (c : nat) (given : list (list P)) : M unit :=
  let! x := get_circ c in
  if negb (c_par x) then raise AttributeError else eval_ops 0 given (c_ops x).

(** ** Contexts *)

(** [circuit.context] (circuit.py:316-328, 767-774) *)
Definition context (c : nat) : M nat :=
  let! x := get_circ c in
  match c_ctx x with
  | Some a => ret a
  | None =>
      let! a := read (fun w => List.length (w_ctx w)) in
      (fun w => (set_ctx w (w_ctx w ++ [(c, false)]), Ok tt)) ;;
      put_circ c (with_ctx x (Some a)) ;; ret a
  end.

(** CircuitContext.__enter__ (circuit.py:858-873, 919-928).  Building the result can raise after the context has
    become active. *)
Definition ctx_enter (a : nat) : M unit :=
  let! cx := get_ctx a in
  let! x := get_circ (fst cx) in
  if c_locked x then raise CircuitError
  else
    let! act := read w_active in
    match act with
    | Some _ => raise RuntimeError
    | None =>
        (fun w => (set_active w (Some a), Ok tt)) ;;
        qubits (fst cx) ;; bits (fst cx) ;; ret tt
    end.

(** CircuitContext.__exit__ and ParametricCircuitContext.__exit__ (circuit.py:875-890, 930-940). *)
Definition ctx_exit (a : nat) : M unit :=
  let! cx := get_ctx a in
  upd_circ (fst cx) (fun x => if c_par x then with_pfrozen x true else x) ;;
  (fun w => (set_active w None, Ok tt)) ;;
  let! fs := read w_exit in
  iterM reset_variables fs ;;
  (fun w => (set_exit w [], Ok tt)) ;;
  lock (fst cx).

(** FrozenContext (circuit.py:846-856) *)
Definition set_frozen (b : bool) (e : exn) : M unit :=
  let! act := read w_active in
  match act with
  | None => raise e
  | Some a => let! cx := get_ctx a in fun w => (set_ctx w (set_nth a (fst cx, b) (w_ctx w)), Ok tt)
  end.

(** ** Programs *)

Inductive call :=
| CNew (par : bool) (nq nb : option nat)
| CNewQubit (l : label) | CNewBit (l : label) | CNewVar (s : string)
| CAddQubit (c : nat) (a : arg) (l : label)
| CAddBit (c : nat) (a : arg) (l : label)
| CAddQReg (c n : nat) (l : label)
| CAddCReg (c n : nat) (l : label)
| CQRegAdd (c : nat) (l : label) (vs : list item)
| CCRegAdd (c : nat) (l : label) (vs : list item)
| CQRegFreeze (c : nat) (l : label) | CCRegFreeze (c : nat) (l : label)
| CQubits (c : nat) | CBits (c : nat)
| CGetQubit (c : nat) (l rl : label) (all : bool)
| CGetBit (c : nat) (l rl : label) (all : bool)
| CFindQubit (c : nat) (v : item) | CFindBit (c : nat) (v : item)
| CLock (c : nat) | CUnlock (c : nat) | CReset (c : nat) (keep : bool)
| CBitSet (b : nat) (v force : bool) | CBitReset (b : nat)
| CVarSet (v : nat) (x : option P)
| CConstruct (k : nat) (ps : option (list param)) (a : qargs)
| CCallOp (o : nat) (a : qargs)
| CSetQubits (o : nat) (qs : list item)
| CCond (o : nat) (bs : list item)
| CStore (o : nat) (bs : list item)
| CEvalOp (o : nat) (given : option (list P))
| CNumQubits (k : nat)
| CAppend (c o : nat) | CExtend (c : nat) (os : list nat) | CRemove (c o : nat)
| CGetParam (c i : nat)
| CCall (t : nat) (qs : list item) (ba : bargs)
| CCallPar (t : nat) (ps : list P) (qs : list item) (ba : bargs)
| CEval (c : nat) (given : list (list P))
| CResetVars (c : nat).

Definition unit_of {A} (m : M A) : M unit := m ;; ret tt.

Definition do_call (x : call) : M unit :=
  match x with
  | CNew par nq nb => unit_of (new_circuit par nq nb)
  | CNewQubit l => unit_of (new_qubit l)
  | CNewBit l => unit_of (new_bit l)
  | CNewVar s => unit_of (new_var s)
  | CAddQubit c a l => add_qubit c a l
  | CAddBit c a l => add_bit c a l
  | CAddQReg c n l => add_qregister c n l
  | CAddCReg c n l => add_cregister c n l
  | CQRegAdd c l vs => qreg_add c l vs
  | CCRegAdd c l vs => creg_add c l vs
  | CQRegFreeze c l => qreg_freeze c l
  | CCRegFreeze c l => creg_freeze c l
  | CQubits c => unit_of (qubits c)
  | CBits c => unit_of (bits c)
  | CGetQubit c l rl all => unit_of (get_qubit c l rl all)
  | CGetBit c l rl all => unit_of (get_bit c l rl all)
  | CFindQubit c v => unit_of (find_qubit c v)
  | CFindBit c v => unit_of (find_bit c v)
  | CLock c => lock c
  | CUnlock c => unlock c
  | CReset c keep => reset c keep
  | CBitSet b v force => bit_set b v force
  | CBitReset b => bit_reset b
  | CVarSet v x => var_put v x
  | CConstruct k ps a => unit_of (construct k ps a)
  | CCallOp o a => unit_of (call_op o a)
  | CSetQubits o qs => set_qubits o qs
  | CCond o bs => conditional o bs
  | CStore o bs => store o bs
  | CEvalOp o given => op_eval o given
  | CNumQubits k => unit_of (cls_num_qubits k)
  | CAppend c o => append_op c o
  | CExtend c os => extend_ops c os
  | CRemove c o => remove_op c o
  | CGetParam c i => unit_of (get_param c i)
  | CCall t qs ba => call_plain t qs ba
  | CCallPar t ps qs ba => call_parametric t ps qs ba
  | CEval c given => eval_circuit c given
  | CResetVars c => reset_variables c
  end.

(** A straight-line program with the [with] statements and [try]. *)
Inductive prog :=
| Skip
| Do (x : call)
| Seq (p q : prog)
| With (c : nat) (body : prog)        (* with circuit.context: body *)
| Frozen (body : prog)                (* with circuit.context.freeze: body *)
| Try (body : prog)                   (* try: body except Exception: pass *)
| Raise (e : exn).                    (* raise e *)

(** What a [with] statement does after its body: run [__exit__], then go on raising. *)
Definition finally (r : world * res unit) (fin : M unit) : world * res unit :=
  let (w, o) := r in
  match fin w with
  | (w', Err e) => (w', Err e)
  | (w', Ok _) => (w', o)
  end.

Fixpoint run (p : prog) : M unit :=
  match p with
  | Skip => ret tt
  | Do x => do_call x
  | Seq p q => run p ;; run q
  | With c body =>
      let! a := context c in
      ctx_enter a ;;
      fun w => finally (run body w) (ctx_exit a)
  | Frozen body =>
      set_frozen true CircuitError ;;
      fun w => finally (run body w) (set_frozen false AttributeError)
  | Try body => fun w => (fst (run body w), Ok tt)
  | Raise e => raise e
  end.

(** The heap before anything has been made; [ks] are the operation classes. *)
Definition start (ks : list cls) : world := mkWorld ks [] [] [] [] [] [] None [].

End World.

Arguments PNum {P} _.
Arguments PVar {P} _.
Arguments Skip {P}.
Arguments Raise {P} _.
Notation "'let!' x ':=' m 'in' k" := (mbind m (fun x => k)) (at level 200, x pattern, right associativity).
Notation "m ';;' k" := (mbind m (fun _ => k)) (at level 199, right associativity).

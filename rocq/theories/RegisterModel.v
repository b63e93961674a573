(** Model of dwave/gate/registers/cyregister.pyx and of [Register] and [SelfIncrementingRegister]
    in dwave/gate/registers/registers.py. *)
From Coq Require Import List ZArith String Bool Arith DecimalString DecimalNat.
From Verif Require Import Py.
Import ListNotations.
Local Open Scope Z_scope.

(** Python objects that may be offered to a register.  Integral numbers of any numeric type compare
    and hash equal in Python, so [IInt] stands for all of them.  *)
Inductive item :=
| INone
| IInt (z : Z)
| IFrac (k : nat)               (* a number that is not integral, such as 2.5 *)
| IBadNum (e : exn) (k : nat)   (* a number on which int() raises [e], such as nan or 1j *)
| IStr (s : string)
| IUnhashable (k : nat)         (* a list, a dict, ... *)
| IQubit (id : nat)
| IBit (id : nat)
| IVar (name : string).

Definition exn_eq_dec : forall a b : exn, {a = b} + {a <> b}.
Proof. decide equality. Defined.

Definition item_eq_dec : forall a b : item, {a = b} + {a <> b}.
Proof.
  decide equality; try apply Z.eq_dec; try apply Nat.eq_dec; try apply string_dec; apply exn_eq_dec.
Defined.

Definition item_eqb (a b : item) : bool := if item_eq_dec a b then true else false.

Definition hashable (v : item) : bool := match v with IUnhashable _ => false | _ => true end.

(** [Py_ssize_t] range. *)
Definition ssize_ok (z : Z) : bool := (- 2 ^ 63 <=? z) && (z <? 2 ^ 63).

(** cdef class cyRegister: [_index_to_label], [_label_to_index], [_stop] (cyregister.pyx:30-33). *)
Record cyreg := mkReg {
  i2l : list (item * item);
  l2i : list (item * item);
  stop : nat
}.

Definition empty_reg : cyreg := mkReg [] [] 0.

Notation zn := Z.of_nat.
Notation get := (dget item_eqb).
Notation mem := (dmem item_eqb).
Notation set := (dset item_eqb).
Notation del := (ddel item_eqb).

(** cyregister.pyx:135-137 *)
Definition is_range (r : cyreg) : bool := match l2i r with [] => true | _ => false end.

(** cyregister.pyx:272-282, for an integer already known to fit [Py_ssize_t]. *)
Definition count_int (r : cyreg) (z : Z) : bool :=
  if is_range r then (0 <=? z) && (z <? zn (stop r))
  else ((0 <=? z) && (z <? zn (stop r)) && negb (mem (IInt z) (i2l r))) || mem (IInt z) (l2i r).

(** cyregister.pyx:284-302.  An integer that does not fit [Py_ssize_t] raises at line 274. *)
Definition count (r : cyreg) (v : item) : res bool :=
  match v with
  | IInt z => if ssize_ok z then Ok (count_int r z) else Err OverflowError
  | IBadNum e _ => Err e
  | IUnhashable _ => Ok false
  | _ => Ok (mem v (l2i r))
  end.

Section PyEq.
(** [numeq v z]: does the object [v] compare equal to the integer [z]?  For a bit or a variable this
    depends on the value it currently holds (primitives.py:104-110, 174-180). *)
Variable numeq : item -> Z -> bool.

(** The comparisons [idx != v], [old == new], [new != idx] (cyregister.pyx:122, 185, 190). *)
Definition py_eqb (a b : item) : bool :=
  item_eqb a b
  || match b with IInt z => numeq a z | _ => false end
  || match a with IInt z => numeq b z | _ => false end.

(** The loop [while self.count(v): v += 1] (cyregister.pyx:111-112). *)
Fixpoint first_free (fuel : nat) (r : cyreg) (z : Z) : res Z :=
  match fuel with
  | O => Err OutOfFuel
  | S f => if count_int r z then first_free f r (z + 1) else Ok z
  end.

(** Lines 120-127: store [v] at the end.  [_stop] is a [Py_ssize_t]; the first test says that a
    register cannot hold more items than that type can count (no machine has the memory for it). *)
Definition push (r : cyreg) (v : item) : cyreg * res item :=
  let idx := IInt (zn (stop r)) in
  if negb (ssize_ok (zn (stop r) + 1)) then (r, Err OverflowError)
  else if py_eqb idx v then (mkReg (i2l r) (l2i r) (S (stop r)), Ok v)
  else if hashable v then
    (mkReg (set idx v (i2l r)) (set v idx (l2i r)) (S (stop r)), Ok v)
  else (r, Err TypeError).

(** cyregister.pyx:88-127 *)
Definition append (r : cyreg) (v : item) (permissive : bool) : cyreg * res item :=
  match v with
  | INone =>
      let z := zn (stop r) in
      if negb (is_range r) && count_int r z then
        match first_free (S (S (stop r))) r 0 with
        | Ok z' => push r (IInt z')
        | Err e => (r, Err e)
        end
      else push r (IInt z)
  | _ =>
      match count r v with
      | Err e => (r, Err e)
      | Ok true => if permissive then (r, Ok v) else (r, Err ValueError)
      | Ok false => push r v
      end
  end.

(** cyregister.pyx:139-156 *)
Fixpoint extend (r : cyreg) (vs : list item) (permissive : bool) : cyreg * res unit :=
  match vs with
  | [] => (r, Ok tt)
  | v :: vs' =>
      match append r v permissive with
      | (r', Ok _) => extend r' vs' permissive
      | (r', Err e) => (r', Err e)
      end
  end.

(** cyregister.pyx:30-43 for a general iterable. *)
Definition init_list (vs : list item) : res cyreg :=
  match extend empty_reg vs true with
  | (r, Ok _) => Ok r
  | (_, Err e) => Err e
  end.

(** cyregister.pyx:38-41: [range(n)]. *)
Definition init_range (n : nat) : cyreg := mkReg [] [] n.

(** cyregister.pyx:264-270 and 45-49 *)
Definition copy (r : cyreg) : cyreg := mkReg (i2l r) (l2i r) (stop r).

(** cyregister.pyx:129-133 *)
Definition clear (r : cyreg) : cyreg := mkReg [] [] 0.

(** cyregister.pyx:158-174 *)
Definition pop (r : cyreg) : cyreg * res item :=
  match stop r with
  | O => (r, Err IndexError)
  | S n =>
      let idx := IInt (zn n) in
      let label := match get idx (i2l r) with Some v => v | None => idx end in
      (mkReg (del idx (i2l r)) (del label (l2i r)) n, Ok label)
  end.

(** cdef object at (cyregister.pyx:237-262), for an index already of type [Py_ssize_t]. *)
Definition at_ (r : cyreg) (idx : Z) : res item :=
  let i := if idx <? 0 then zn (stop r) + idx else idx in
  if (0 <=? i) && (i <? zn (stop r)) then
    if is_range r then Ok (IInt i)
    else match get (IInt i) (i2l r) with Some v => Ok v | None => Ok (IInt i) end
  else Err IndexError.

(** [__getitem__] on an integer (cyregister.pyx:57-59), which is first converted to [Py_ssize_t]. *)
Definition getitem (r : cyreg) (idx : Z) : res item :=
  if ssize_ok idx then at_ r idx else Err OverflowError.

(** Iteration (cyregister.pyx:76-83). *)
Definition items (r : cyreg) : res (list item) :=
  if is_range r then Ok (map (fun i => IInt (zn i)) (seq 0 (stop r)))
  else mapM (fun i => at_ r (zn i)) (seq 0 (stop r)).

(** [range(start, stop, step)] for a non-zero step. *)
Fixpoint py_range (fuel : nat) (start stop step : Z) : list Z :=
  match fuel with
  | O => []
  | S f =>
      if (if 0 <? step then start <? stop else stop <? start)
      then start :: py_range f (start + step) stop step else []
  end.

(** [__getitem__] on a slice (cyregister.pyx:66-74).  Absent bounds are [None]. *)
Definition slice (r : cyreg) (start stop' step : option Z) : res cyreg :=
  let s := match start with Some z => z | None => 0 end in
  let e := match stop' with Some z => z | None => zn (stop r) end in
  let k := match step with Some z => z | None => 1 end in
  if negb (ssize_ok s && ssize_ok e && ssize_ok k) then Err OverflowError else
  if k =? 0 then Err ValueError else
  (fix go (l : list Z) (new : cyreg) : res cyreg :=
     match l with
     | [] => Ok new
     | i :: l' =>
         let? v := at_ r i in
         match append new v false with
         | (new', Ok _) => go l' new'
         | (_, Err e) => Err e
         end
     end) (py_range (Z.to_nat (Z.abs (e - s))) s e k) empty_reg.

(** [int(pyobj)] on a dictionary value that is not an int (cyregister.pyx:335); simplified for
    strings, where a numeric string would be converted. *)
Definition to_index (v : item) : res Z :=
  match v with
  | IInt z => Ok z
  | IStr _ => Err ValueError
  | IBadNum e _ => Err e
  | _ => Err TypeError
  end.

(** cyregister.pyx:304-335.  Returns the register too, because a permissive lookup inserts. *)
Definition index (r : cyreg) (v : item) (permissive : bool) : cyreg * res Z :=
  let '(r1, pre) := if permissive then
                      match append r v true with (r', Ok _) => (r', Ok tt) | (r', Err e) => (r', Err e) end
                    else (r, Ok tt) in
  match pre with
  | Err e => (r1, Err e)
  | Ok _ =>
      (r1,
       let? c := count r1 v in
       if c then
         if is_range r1 then to_index v
         else match get v (l2i r1) with Some w => to_index w | None => to_index v end
       else Err ValueError)
  end.

(** One renaming (cyregister.pyx:185-194). *)
Definition rename (r : cyreg) (p : item * item) : cyreg :=
  let '(old, new) := p in
  if py_eqb old new then r
  else
    let idx := match get old (l2i r) with Some w => w | None => old end in
    let l2i' := del old (l2i r) in
    if negb (py_eqb new idx)
    then mkReg (set idx new (i2l r)) (set new idx l2i') (stop r)
    else mkReg (del idx (i2l r)) l2i' (stop r).

(** [next(counter)] until the label is unused (cyregister.pyx:420-422). *)
Fixpoint fresh_label (fuel : nat) (used : Z -> bool) (z : Z) : res Z :=
  match fuel with
  | O => Err OutOfFuel
  | S f => if used z then fresh_label f used (z + 1) else Ok z
  end.

(** The loop of cyregister.pyx:412-430; [ctr] is the state of [counter]. *)
Fixpoint resolve_loop (m : list (item * item)) (used : Z -> bool) (fuel : nat)
         (old_labels new_labels : item -> bool) (ctr : Z)
  : res (list (item * item) * list (item * item)) :=
  match m with
  | [] => Ok ([], [])
  | (old, new) :: m' =>
      if py_eqb old new then resolve_loop m' used fuel old_labels new_labels ctr
      else if new_labels old || old_labels new then
        let? lbl := fresh_label fuel used ctr in
        let? rest := resolve_loop m' used fuel old_labels new_labels (lbl + 1) in
        Ok ((old, IInt lbl) :: fst rest, (IInt lbl, new) :: snd rest)
      else
        let? rest := resolve_loop m' used fuel old_labels new_labels ctr in
        Ok ((old, new) :: fst rest, snd rest)
  end.

(** The check of every new label against the existing ones (cyregister.pyx:373-376). *)
Fixpoint check_new (r : cyreg) (old_labels : item -> bool) (news : list item) : res unit :=
  match news with
  | [] => Ok tt
  | v :: vs =>
      let? c := count r v in
      if c && negb (old_labels v) then Err ValueError else check_new r old_labels vs
  end.

(** [_iter_safe_relabels] and [_resolve_label_conflict] (cyregister.pyx:346-432).  The generator runs
    all its checks before its first yield, so the list of sub-maps it yields can be computed first. *)
Definition iter_safe_relabels (m : list (item * item)) (r : cyreg) : res (list (list (item * item))) :=
  if negb (forallb (fun p => hashable (snd p)) m) then Err ValueError
  else
    let new_labels := fold_left (fun d p => set (snd p) (fst p) d) m [] in
    if Nat.ltb (List.length new_labels) (List.length m) then Err ValueError
    else
      let is_old v := mem v m in
      let is_new v := mem v new_labels in
      let? _ := check_new r is_old (map fst new_labels) in
      if existsb (fun p => is_new (fst p)) m then
        let used z := is_new (IInt z) || is_old (IInt z) || count_int r z in
        let? subs := resolve_loop m used (S (2 * List.length m + stop r)) is_old is_new
                                  (2 * zn (List.length m)) in
        Ok [fst subs; snd subs]
      else Ok [m].

(** cyregister.pyx:176-194 *)
Definition relabel (r : cyreg) (m : list (item * item)) : cyreg * res unit :=
  match iter_safe_relabels m r with
  | Err e => (r, Err e)
  | Ok subs => (fold_left (fun r' sub => fold_left rename sub r') subs r, Ok tt)
  end.

(** cyregister.pyx:196-217 *)
Definition relabel_as_integers (r : cyreg) : cyreg * list (item * item) :=
  (mkReg [] [] (stop r), i2l r).

(** The mapping built by [_remove] (cyregister.pyx:230-233). *)
Fixpoint shift_map (r : cyreg) (vi : Z) (k : nat) (d : list (item * item)) : res (list (item * item)) :=
  match k with
  | O => Ok d
  | S k' =>
      let? a := at_ r vi in
      let? b := at_ r (vi + 1) in
      shift_map r (vi + 1) k' (set a b d)
  end.

(** cyregister.pyx:219-235 *)
Definition remove (r : cyreg) (v : item) : cyreg * res unit :=
  match snd (index r v false) with
  | Err e => (r, Err e)
  | Ok vi =>
      match shift_map r vi (Z.to_nat (zn (stop r) - 1 - vi)) [] with
      | Err e => (r, Err e)
      | Ok m =>
          match pop r with
          | (r', Err e) => (r', Err e)
          | (r', Ok _) => relabel r' m
          end
      end
  end.

(** class Register (registers.py:41-109).  [frozen_] is the attribute [_frozen]; [None] means that
    the attribute does not exist, which is how [copy] leaves it: it calls [__new__] and never
    [__init__] (cyregister.pyx:266). *)
Record register := mkRegister { core : cyreg; frozen_ : option bool }.

(** registers.py:48-50 *)
Definition new_register (vs : list item) : res register :=
  let? c := init_list vs in Ok (mkRegister c (Some false)).

(** registers.py:65-68 *)
Definition frozen (r : register) : res bool :=
  match frozen_ r with Some b => Ok b | None => Err AttributeError end.

(** registers.py:70-72 *)
Definition freeze (r : register) : register := mkRegister (core r) (Some true).

Definition register_copy (r : register) : register := mkRegister (copy (core r)) None.

(** registers.py:95-109, [data] already a list of items. *)
Definition add (r : register) (vs : list item) : register * res unit :=
  match frozen r with
  | Err e => (r, Err e)
  | Ok true => (r, Err RegisterError)
  | Ok false => let (c, o) := extend (core r) vs false in (mkRegister c (frozen_ r), o)
  end.

(** registers.py:82-93.  Both operands are only read. *)
Definition register_add (a b : register) : res register :=
  let? vs := items (core b) in
  let c := register_copy a in
  match extend (core c) vs false with
  | (c', Ok _) => Ok (mkRegister c' (frozen_ c))
  | (_, Err e) => Err e
  end.

(** registers.py:52-54 on a slice: [type(self)()] is a fresh register. *)
Definition register_slice (r : register) (start stop' step : option Z) : res register :=
  let? c := slice (core r) start stop' step in Ok (mkRegister c (Some false)).

End PyEq.

(** Objects that never compare equal to an integer unless they are that integer: the situation of
    registers of qubits, strings, unset bits and unset variables. *)
Definition plain_eq (v : item) (z : Z) : bool := item_eqb v (IInt z).

(** [str(k)] for a non-negative integer. *)
Definition py_str (k : nat) : string := NilZero.string_of_uint (Nat.to_uint k).

(** SelfIncrementingRegister.__getitem__ (registers.py:195-210). *)
Definition si_getitem (numeq : item -> Z -> bool) (r : register) (i : Z) : register * res item :=
  let n := stop (core r) in
  let grow r :=
    let vs := map (fun k => IVar (py_str k)) (seq n (Z.to_nat (i + 1 - zn n))) in
    match add numeq r vs with
    | (r', Err e) => (r', Err e)
    | (r', Ok _) => (r', getitem (core r') i)
    end in
  if zn n <=? i then
    match frozen r with
    | Err e => (r, Err e)
    | Ok false => grow r
    | Ok true => (r, getitem (core r) i)
    end
  else (r, getitem (core r) i).

(** A sequence of accesses. *)
Fixpoint si_accesses (numeq : item -> Z -> bool) (r : register) (is : list nat)
  : register * list (res item) :=
  match is with
  | [] => (r, [])
  | i :: is' =>
      let (r1, x) := si_getitem numeq r (zn i) in
      let (r2, xs) := si_accesses numeq r1 is' in (r2, x :: xs)
  end.

(** What a register should be: a plain list of distinct items. *)
From Coq Require Import List ZArith Bool Arith.
From Verif Require Import Py RegisterModel.
Import ListNotations.
Local Open Scope Z_scope.

Definition inb (v : item) (l : list item) : bool := existsb (item_eqb v) l.

(** The exception that merely asking about an object raises, if any: integers beyond the machine
    word and numbers that cannot be converted to an integer. *)
Definition ask_exn (v : item) : option exn :=
  match v with
  | IInt z => if ssize_ok z then None else Some OverflowError
  | IBadNum e _ => Some e
  | _ => None
  end.

Definition spec_contains (l : list item) (v : item) : res bool :=
  match ask_exn v with Some e => Err e | None => Ok (inb v l) end.

(** The label generated for an anonymous item: the position if it is free, otherwise the least free
    non-negative integer. *)
Definition spec_auto (l : list item) : item :=
  if negb (inb (IInt (zn (List.length l))) l) then IInt (zn (List.length l))
  else match find (fun k => negb (inb (IInt (zn k)) l)) (seq 0 (S (List.length l))) with
       | Some k => IInt (zn k)
       | None => INone
       end.

(** A list cannot have more elements than the machine word can count. *)
Definition spec_push (l : list item) (v : item) : list item * res item :=
  if negb (ssize_ok (zn (List.length l) + 1)) then (l, Err OverflowError)
  else if hashable v then (l ++ [v], Ok v) else (l, Err TypeError).

Definition spec_append (l : list item) (v : item) (permissive : bool) : list item * res item :=
  match v with
  | INone => spec_push l (spec_auto l)
  | _ =>
      match spec_contains l v with
      | Err e => (l, Err e)
      | Ok true => (l, if permissive then Ok v else Err ValueError)
      | Ok false => spec_push l v
      end
  end.

Fixpoint spec_extend (l : list item) (vs : list item) (permissive : bool) : list item * res unit :=
  match vs with
  | [] => (l, Ok tt)
  | v :: vs' =>
      match spec_append l v permissive with
      | (l', Ok _) => spec_extend l' vs' permissive
      | (l', Err e) => (l', Err e)
      end
  end.

Definition spec_pop (l : list item) : list item * res item :=
  match rev l with
  | [] => (l, Err IndexError)
  | v :: t => (rev t, Ok v)
  end.

(** Python list indexing. *)
Definition spec_nth (l : list item) (idx : Z) : res item :=
  let i := if idx <? 0 then zn (List.length l) + idx else idx in
  if 0 <=? i then
    match nth_error l (Z.to_nat i) with Some v => Ok v | None => Err IndexError end
  else Err IndexError.

Definition spec_at (l : list item) (idx : Z) : res item :=
  if ssize_ok idx then spec_nth l idx else Err OverflowError.

Fixpoint position (v : item) (l : list item) : option nat :=
  match l with
  | [] => None
  | x :: l' => if item_eqb v x then Some O else option_map S (position v l')
  end.

Definition spec_index (l : list item) (v : item) (permissive : bool) : list item * res Z :=
  let '(l1, pre) := if permissive then
                      match spec_append l v true with (l', Ok _) => (l', Ok tt) | (l', Err e) => (l', Err e) end
                    else (l, Ok tt) in
  match pre with
  | Err e => (l1, Err e)
  | Ok _ => (l1, match ask_exn v with
                 | Some e => Err e
                 | None => match position v l1 with Some i => Ok (zn i) | None => Err ValueError end
                 end)
  end.

(** [list.remove] on a duplicate-free list. *)
Definition spec_remove (l : list item) (v : item) : list item * res unit :=
  match ask_exn v with
  | Some e => (l, Err e)
  | None => if inb v l then (filter (fun x => negb (item_eqb v x)) l, Ok tt) else (l, Err ValueError)
  end.

(** Simultaneous substitution. *)
Definition subst (m : list (item * item)) (v : item) : item :=
  match dget item_eqb v m with Some w => w | None => v end.

Fixpoint spec_check (l : list item) (keys news : list item) : res unit :=
  match news with
  | [] => Ok tt
  | v :: vs =>
      let? c := spec_contains l v in
      if c && negb (inb v keys) then Err ValueError else spec_check l keys vs
  end.

Fixpoint nodupb (l : list item) : bool :=
  match l with [] => true | x :: l' => negb (inb x l') && nodupb l' end.

Definition spec_relabel (l : list item) (m : list (item * item)) : list item * res unit :=
  if negb (forallb (fun p => hashable (snd p)) m) then (l, Err ValueError)
  else if negb (nodupb (map snd m)) then (l, Err ValueError)
  else match spec_check l (map fst m) (map snd m) with
       | Err e => (l, Err e)
       | Ok _ => (map (subst m) l, Ok tt)
       end.

(** A register call and what it returns. *)
Inductive rop :=
| RAppend (v : item) (permissive : bool)
| RExtend (vs : list item) (permissive : bool)
| RPop
| RClear
| RCopy
| RRemove (v : item)
| RRelabel (m : list (item * item))
| RRelabelInts
| RLen
| RIter
| RContains (v : item)
| RAt (i : Z)
| RIndex (v : item) (permissive : bool).

Inductive rout :=
| OUnit | OItem (v : item) | OBool (b : bool) | OInt (z : Z) | OItems (l : list item).

Definition rmap {A} (f : A -> rout) (r : res A) : res rout :=
  match r with Ok a => Ok (f a) | Err e => Err e end.

Definition spec_step (l : list item) (o : rop) : list item * res rout :=
  match o with
  | RAppend v p => let (l', r) := spec_append l v p in (l', rmap OItem r)
  | RExtend vs p => let (l', r) := spec_extend l vs p in (l', rmap (fun _ => OUnit) r)
  | RPop => let (l', r) := spec_pop l in (l', rmap OItem r)
  | RClear => ([], Ok OUnit)
  | RCopy => (l, Ok OUnit)
  | RRemove v => let (l', r) := spec_remove l v in (l', rmap (fun _ => OUnit) r)
  | RRelabel m => let (l', r) := spec_relabel l m in (l', rmap (fun _ => OUnit) r)
  | RRelabelInts => (map (fun i => IInt (zn i)) (seq 0 (List.length l)), Ok OUnit)
  | RLen => (l, Ok (OInt (zn (List.length l))))
  | RIter => (l, Ok (OItems l))
  | RContains v => (l, rmap OBool (spec_contains l v))
  | RAt i => (l, rmap OItem (spec_at l i))
  | RIndex v p => let (l', r) := spec_index l v p in (l', rmap OInt r)
  end.

(** The implementation's side. *)
Section Impl.
Variable numeq : item -> Z -> bool.

Definition impl_step (r : cyreg) (o : rop) : cyreg * res rout :=
  match o with
  | RAppend v p => let (r', x) := append numeq r v p in (r', rmap OItem x)
  | RExtend vs p => let (r', x) := extend numeq r vs p in (r', rmap (fun _ => OUnit) x)
  | RPop => let (r', x) := pop r in (r', rmap OItem x)
  | RClear => (clear r, Ok OUnit)
  | RCopy => (copy r, Ok OUnit)
  | RRemove v => let (r', x) := remove numeq r v in (r', rmap (fun _ => OUnit) x)
  | RRelabel m => let (r', x) := relabel numeq r m in (r', rmap (fun _ => OUnit) x)
  | RRelabelInts => (fst (relabel_as_integers r), Ok OUnit)
  | RLen => (r, Ok (OInt (zn (stop r))))
  | RIter => (r, rmap OItems (items r))
  | RContains v => (r, rmap OBool (count r v))
  | RAt i => (r, rmap OItem (getitem r i))
  | RIndex v p => let (r', x) := index numeq r v p in (r', rmap OInt x)
  end.

Fixpoint impl_run (r : cyreg) (os : list rop) : cyreg * list (res rout) :=
  match os with
  | [] => (r, [])
  | o :: os' =>
      let (r1, x) := impl_step r o in
      let (r2, xs) := impl_run r1 os' in (r2, x :: xs)
  end.
End Impl.

Fixpoint spec_run (l : list item) (os : list rop) : list item * list (res rout) :=
  match os with
  | [] => (l, [])
  | o :: os' =>
      let (l1, x) := spec_step l o in
      let (l2, xs) := spec_run l1 os' in (l2, x :: xs)
  end.

(** The mapping handed to relabel is a dictionary whose keys are items of the register. *)
Fixpoint keys_known (l : list item) (os : list rop) : Prop :=
  match os with
  | [] => True
  | o :: os' =>
      match o with
      | RRelabel m => NoDup (map fst m) /\ (forall k, In k (map fst m) -> In k l)
      | _ => True
      end /\ keys_known (fst (spec_step l o)) os'
  end.

(** Python's slice of a list: which positions it visits, and the items found there. *)
Definition slice_bounds (n : Z) (start stop' : option Z) (k : Z) : Z * Z :=
  let lo := if 0 <? k then 0 else -1 in
  let hi := if 0 <? k then n else n - 1 in
  let clip z := if z <? 0 then Z.max (z + n) lo else Z.min z hi in
  (match start with Some z => clip z | None => if 0 <? k then lo else hi end,
   match stop' with Some z => clip z | None => if 0 <? k then hi else lo end).

Definition spec_slice (l : list item) (start stop' step : option Z) : res (list item) :=
  let k := match step with Some z => z | None => 1 end in
  if k =? 0 then Err ValueError
  else
    let '(s, e) := slice_bounds (zn (List.length l)) start stop' k in
    let visited i := (if 0 <? k then (s <=? zn i) && (zn i <? e) else (zn i <=? s) && (e <? zn i))
                     && ((zn i - s) mod k =? 0) in
    let order := if 0 <? k then seq 0 (List.length l) else rev (seq 0 (List.length l)) in
    Ok (map (fun i => nth i l INone) (filter visited order)).

(** A register that a program can obtain: built from some items, then put through some calls. *)
Definition reachable (numeq : item -> Z -> bool) (r : cyreg) : Prop :=
  exists vs r0 os, init_list numeq vs = Ok r0 /\
    keys_known (fst (spec_extend [] vs true)) os /\ fst (impl_run numeq r0 os) = r.

(** Only an integer compares equal to an integer: the case of qubits, strings, unset bits and unset
    variables. *)
Definition plain (numeq : item -> Z -> bool) : Prop :=
  forall v z, numeq v z = true -> v = IInt z.

(** Items that can be stored as they are: hashable, not [None], not beyond the machine word. *)
Definition storable (v : item) : Prop := v <> INone /\ hashable v = true /\ ask_exn v = None.

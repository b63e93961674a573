(** Model of comparing and combining registers.  Register inherits from [typing.AbstractSet] (registers/registers.py:41), so
    [==], [<=], [<], [isdisjoint], [&], [|], [-] and [^] are the methods of [collections.abc.Set] in Python's standard
    library, on top of [__len__], [__iter__] and [__contains__] of cyregister.pyx:51-52, 76-86 and of the constructor
    (registers.py:48-50), which [Set._from_iterable] calls.

    Simplification: the generators that [Set] hands to the constructor are run to their end first; an exception of the
    constructor in the middle of one would come earlier. *)
From Coq Require Import List ZArith Bool Arith.
From Verif Require Import Py RegisterModel.
Import ListNotations.

Section Sets.
Variable numeq : item -> Z -> bool.

(** [for elem in l: if elem not in r: return False] *)
Fixpoint all_in (r : cyreg) (l : list item) : res bool :=
  match l with
  | [] => Ok true
  | v :: l' => let? c := count r v in if c then all_in r l' else Ok false
  end.

(** [Set.__le__], [__lt__], [__eq__] *)
Definition set_le (a b : register) : res bool :=
  if Nat.ltb (stop (core b)) (stop (core a)) then Ok false
  else let? l := items (core a) in all_in (core b) l.
Definition set_lt (a b : register) : res bool :=
  if Nat.ltb (stop (core a)) (stop (core b)) then set_le a b else Ok false.
Definition set_eq (a b : register) : res bool :=
  if Nat.eqb (stop (core a)) (stop (core b)) then set_le a b else Ok false.

(** [Set.isdisjoint]: [for value in other: if value in self: return False] *)
Fixpoint none_in (r : cyreg) (l : list item) : res bool :=
  match l with
  | [] => Ok true
  | v :: l' => let? c := count r v in if c then Ok false else none_in r l'
  end.
Definition set_disjoint (a b : register) : res bool := let? l := items (core b) in none_in (core a) l.

(** [(value for value in l if (value in r) == keep)] *)
Fixpoint keep_in (keep : bool) (r : cyreg) (l : list item) : res (list item) :=
  match l with
  | [] => Ok []
  | v :: l' => let? c := count r v in
               let? rest := keep_in keep r l' in
               Ok (if Bool.eqb c keep then v :: rest else rest)
  end.

(** [Set.__and__] keeps the values of the other register; [__sub__], [__or__], [__xor__] *)
Definition set_and (a b : register) : res register :=
  let? l := items (core b) in
  let? k := keep_in true (core a) l in new_register numeq k.
Definition set_sub (a b : register) : res register :=
  let? l := items (core a) in
  let? k := keep_in false (core b) l in new_register numeq k.
Definition set_or (a b : register) : res register :=
  let? la := items (core a) in
  let? lb := items (core b) in new_register numeq (la ++ lb).
Definition set_xor (a b : register) : res register :=
  let? x := set_sub a b in
  let? y := set_sub b a in set_or x y.
End Sets.

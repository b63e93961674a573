(** Model of dwave/gate/tools/counters.py. *)
From Coq Require Import List Ascii String Arith Bool.
From Verif Require Import Py.
Import ListNotations.

(** An id is the list of its characters ([''.join(...)], counters.py:55, is injective on lists of
    one-character strings, so lists of characters stand for strings). *)
Definition id := list ascii.

Definition id_eqb (a b : id) : bool := if list_eq_dec ascii_dec a b then true else false.

(** [itertools.combinations(l, r)]: subsequences of length [r] in the documented lexicographic
    order of positions (counters.py:39, 71, 89). *)
Fixpoint combinations {A} (r : nat) (l : list A) : list (list A) :=
  match r with
  | O => [[]]
  | S r' => match l with
            | [] => []
            | x :: xs => map (cons x) (combinations r' xs) ++ combinations r xs
            end
  end.

(** Class attributes of [IDCounter] (counters.py:33-41).  [gen] is what the iterator [_id_gen] has
    still to yield. *)
Record counter := mkCounter {
  length_ : nat;
  batch : nat;
  gen : list id;
  id_set : list id
}.

(** counters.py:38 *)
Definition default_alphanum : list ascii :=
  list_ascii_of_string "q0a1b2c3d4e5f6g7h8i9jklmnoprstuvwxyz".

Section Counter.
Variable alphanum : list ascii.   (* the class attribute _alphanum *)

(** [set.add] *)
Definition set_add (x : id) (s : list id) : list id :=
  if existsb (id_eqb x) s then s else s ++ [x].

(** One pass through the loop body of [refresh] (counters.py:53-74).  The boolean says whether the
    loop goes on.  The warning of line 64 is not modelled. *)
Definition refresh_body (c : counter) : counter * res bool :=
  match gen c with
  | x :: g => (mkCounter (length_ c) (batch c) g (set_add x (id_set c)), Ok true)
  | [] =>
      let len := S (length_ c) in
      if Nat.ltb (List.length alphanum) len then
        match id_set c with
        | [] => (mkCounter len (batch c) [] [], Err ValueError)
        | _ => (mkCounter len (batch c) [] (id_set c), Ok false)
        end
      else
        match combinations len alphanum with
        | x :: g => (mkCounter len (batch c) g (set_add x (id_set c)), Ok true)
        | [] => (mkCounter len (batch c) [] (id_set c), Err RuntimeError) (* StopIteration *)
        end
  end.

Fixpoint refresh_loop (k : nat) (c : counter) : counter * res unit :=
  match k with
  | O => (c, Ok tt)
  | S k' =>
      match refresh_body c with
      | (c', Ok true) => refresh_loop k' c'
      | (c', Ok false) => (c', Ok tt)
      | (c', Err e) => (c', Err e)
      end
  end.

(** counters.py:51-74 *)
Definition refresh (c : counter) : counter * res unit := refresh_loop (batch c) c.

Fixpoint remove_nth (k : nat) (s : list id) : list id :=
  match s, k with
  | [], _ => []
  | _ :: s', O => s'
  | x :: s', S k' => x :: remove_nth k' s'
  end.

(** [set.pop] removes an arbitrary element; [k] is the choice (taken modulo the size).  An empty
    set raises [KeyError]. *)
Definition set_pop (k : nat) (s : list id) : res (id * list id) :=
  match s with
  | [] => Err KeyError
  | _ => let i := k mod List.length s in
         match nth_error s i with
         | Some x => Ok (x, remove_nth i s)
         | None => Err KeyError
         end
  end.

(** counters.py:44-48 *)
Definition next (k : nat) (c : counter) : counter * res id :=
  let (c1, r) := match id_set c with [] => refresh c | _ => (c, Ok tt) end in
  match r with
  | Err e => (c1, Err e)
  | Ok _ => match set_pop k (id_set c1) with
            | Ok (x, s) => (mkCounter (length_ c1) (batch c1) (gen c1) s, Ok x)
            | Err e => (c1, Err e)
            end
  end.

(** counters.py:77-91; [None] and 0 select the default ([length or default]). *)
Definition or_default (o : option nat) (d : nat) : nat :=
  match o with Some (S n) => S n | _ => d end.

Definition reset (len bat : option nat) : counter :=
  let l := or_default len 4 in
  mkCounter l (or_default bat 1000) (combinations l alphanum) [].

(** A schedule of calls on the class. *)
Inductive ccall := CNext (pick : nat) | CRefresh.

(** Runs a schedule; exceptions are caught by the caller and the class state stays as the failing
    call left it.  Returns the final state and the outcome of every [next] call in order. *)
Fixpoint run (s : list ccall) (c : counter) : counter * list (res id) :=
  match s with
  | [] => (c, [])
  | CNext k :: s' =>
      let (c1, r) := next k c in
      let (c2, rs) := run s' c1 in (c2, r :: rs)
  | CRefresh :: s' => run s' (fst (refresh c))
  end.

End Counter.

(** The ids handed out, in order. *)
Fixpoint issued (rs : list (res id)) : list id :=
  match rs with
  | [] => []
  | Ok x :: rs' => x :: issued rs'
  | Err _ :: rs' => issued rs'
  end.

(** Model of dwave/gate/primitives.py: qubits, bits and variables, their equality and hashes. *)
From Coq Require Import List ZArith Ascii String Bool Arith.
From Verif Require Import Py CounterModel WorldModel.
Import ListNotations.
Local Open Scope string_scope.
Local Open Scope list_scope.

Section Prim.
(** Plain numbers, with Python's [==] and truth value on them and the numbers 0 and 1 that bits hold.
    Values of variables are plain numbers (primitives.py:162 says complex; anything is accepted). *)
Variable N : Type.
Variable neqb : N -> N -> bool.
Variable ntrue : N -> bool.
Variable digit : bool -> N.
(** [hash] on strings and on numbers. *)
Variable shash : string -> Z.
Variable nhash : N -> Z.

(** Labels are not looked at by the code modelled here; strings stand for them.
    primitives.py:38-40, 79-82, 159-162 *)
Inductive prim :=
| PQubit (label : string) (id : string)
| PBit (label : string) (id : string) (value : option bool)
| PVariable (name : string) (value : option N).

(** What can stand on a side of [==]. *)
Inductive val := VPrim (p : prim) | VNum (n : N) | VStr (s : string).

(** A primitive and a number or string: primitives.py:57-61, 104-110, 174-180. *)
Definition eq_plain (p : prim) (v : val) : bool :=
  match p with
  | PQubit _ _ => false
  | PBit _ _ (Some b) => match v with VNum n => neqb (digit b) n | _ => false end
  | PBit _ _ None => false
  | PVariable _ (Some x) => if ntrue x then match v with VNum n => neqb x n | _ => false end else false
  | PVariable _ None => false
  end.

(** Two primitives (same lines).  Comparing the number inside with a primitive of another class falls to
    that class's [__eq__], since [int.__eq__] gives NotImplemented. *)
Definition eq_prim (p q : prim) : bool :=
  match p, q with
  | PQubit _ i, PQubit _ j => String.eqb i j
  | PQubit _ _, _ => false
  | PBit _ i _, PBit _ j _ => String.eqb i j
  | PBit _ _ (Some b), _ => eq_plain q (VNum (digit b))
  | PBit _ _ None, _ => false
  | PVariable a _, PVariable b _ => String.eqb a b
  | PVariable _ (Some x), _ => if ntrue x then eq_plain q (VNum x) else false
  | PVariable _ None, _ => false
  end.

(** [a == b] *)
Definition py_eq (a b : val) : bool :=
  match a, b with
  | VPrim p, VPrim q => eq_prim p q
  | VPrim p, _ => eq_plain p b
  | _, VPrim q => eq_plain q a
  | VNum n, VNum m => neqb n m
  | VStr s, VStr t => String.eqb s t
  | _, _ => false
  end.

(** [hash(a)]: primitives.py:67-69, 118-120, 188-190 *)
Definition py_hash (a : val) : Z :=
  match a with
  | VPrim (PQubit _ i) => shash ("Qubit" ++ i)%string
  | VPrim (PBit _ i _) => shash ("Bit" ++ i)%string
  | VPrim (PVariable n _) => shash n
  | VNum n => nhash n
  | VStr s => shash s
  end.

(** Programs that make and change primitives.  [pick] is the choice of [set.pop] in [IDCounter.next]. *)
Inductive pcall :=
| PNewQubit (label : string) (pick : nat)
| PNewBit (label : string) (pick : nat)
| PNewVariable (name : string)
| PSetLabel (o : nat) (label : string)               (* primitives.py:47-50, 89-92 *)
| PBitSet (o : nat) (value force : bool)             (* 122-135; the value as [bool(value)] *)
| PBitReset (o : nat)                                (* 137-139 *)
| PVarSet (o : nat) (x : N)                          (* 192-198 *)
| PVarReset (o : nat)                                (* 200-202 *)
| PRefresh.                                          (* IDCounter.refresh, tools/counters.py *)

Variable alphanum : list ascii.
Definition pheap : Type := (counter * list prim)%type.

Definition set_label (l : string) (p : prim) : prim :=
  match p with PQubit _ i => PQubit l i | PBit _ i v => PBit l i v | p => p end.
Definition put (o : nat) (p : prim) (h : pheap) : pheap := (fst h, set_nth o p (snd h)).
Definition pstep (x : pcall) (h : pheap) : pheap * res unit :=
  match x with
  | PNewQubit l k =>
      match next alphanum k (fst h) with
      | (c, Ok i) => ((c, snd h ++ [PQubit l (string_of_list_ascii i)]), Ok tt)
      | (c, Err e) => ((c, snd h), Err e)
      end
  | PNewBit l k =>
      match next alphanum k (fst h) with
      | (c, Ok i) => ((c, snd h ++ [PBit l (string_of_list_ascii i) None]), Ok tt)
      | (c, Err e) => ((c, snd h), Err e)
      end
  | PNewVariable n => ((fst h, snd h ++ [PVariable n None]), Ok tt)
  | PSetLabel o l =>
      match nth_error (snd h) o with
      | Some p => (put o (set_label l p) h, Ok tt)
      | None => (h, Err IndexError)
      end
  | PBitSet o v force =>
      match nth_error (snd h) o with
      | Some (PBit l i (Some w)) => if force then (put o (PBit l i (Some v)) h, Ok tt) else (h, Err ValueError)
      | Some (PBit l i None) => (put o (PBit l i (Some v)) h, Ok tt)
      | _ => (h, Err AttributeError)
      end
  | PBitReset o =>
      match nth_error (snd h) o with
      | Some (PBit l i _) => (put o (PBit l i None) h, Ok tt)
      | _ => (h, Err AttributeError)
      end
  | PVarSet o x =>
      match nth_error (snd h) o with
      | Some (PVariable n _) => (put o (PVariable n (Some x)) h, Ok tt)
      | _ => (h, Err AttributeError)
      end
  | PVarReset o =>
      match nth_error (snd h) o with
      | Some (PVariable n _) => (put o (PVariable n None) h, Ok tt)
      | _ => (h, Err AttributeError)
      end
  | PRefresh => let (c, r) := refresh alphanum (fst h) in ((c, snd h), r)
  end.

(** A program; exceptions are caught and the next call is made. *)
Fixpoint pruns (xs : list pcall) (h : pheap) : pheap :=
  match xs with [] => h | x :: xs' => pruns xs' (fst (pstep x h)) end.
End Prim.

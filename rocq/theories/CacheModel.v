(** Model of the cache around build_unitary: functools.lru_cache(maxsize=128) (unitary.py:43-44).

    Circuits define neither [__eq__] nor [__hash__], so the cache key is the identity of the circuit object.
    The cache keeps the circuit alive, so an identity is never reused while its entry exists.  A call that
    raises leaves no entry.  (Passing the circuit by keyword makes a separate key; not modelled.) *)
From Coq Require Import List Arith Bool.
From Verif Require Import Py.
Import ListNotations.

Section Cache.
Variable A : Type.                       (* what a circuit contains: its qubits and operations *)
Variable M : Type.                       (* matrices *)
Variable build : A -> res M.             (* the decorated function, unitary.py:53-63 *)
Variable maxsize : nat.

(** Most recently used first. *)
Definition cache := list (nat * M).

Fixpoint lookup (c : nat) (l : cache) : option M :=
  match l with
  | [] => None
  | (c', m) :: l' => if Nat.eqb c c' then Some m else lookup c l'
  end.

Definition drop (c : nat) (l : cache) : cache := filter (fun p => negb (Nat.eqb c (fst p))) l.

Record cstate := mkCstate { contents : nat -> A; cached : cache }.

(** A call of build_unitary on circuit [c]. *)
Definition build_call (c : nat) (s : cstate) : cstate * res M :=
  match lookup c (cached s) with
  | Some m => (mkCstate (contents s) ((c, m) :: drop c (cached s)), Ok m)
  | None =>
      match build (contents s c) with
      | Ok m => (mkCstate (contents s) (firstn maxsize ((c, m) :: cached s)), Ok m)
      | Err e => (s, Err e)
      end
  end.

(** What can happen: the contents of a circuit change (append, remove, reset, add_qubit, ...), or
    build_unitary is called. *)
Inductive event := Edit (c : nat) (a : A) | Build (c : nat).

Definition step (e : event) (s : cstate) : cstate :=
  match e with
  | Edit c a => mkCstate (fun c' => if Nat.eqb c' c then a else contents s c') (cached s)
  | Build c => fst (build_call c s)
  end.

Fixpoint history (evs : list event) (s : cstate) : cstate :=
  match evs with [] => s | e :: evs' => history evs' (step e s) end.

(** The program start: nothing is cached. *)
Definition start (f : nat -> A) : cstate := mkCstate f [].
End Cache.

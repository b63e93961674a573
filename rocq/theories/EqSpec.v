(** Specifications for C68. *)
From Coq Require Import List String Bool Arith Permutation.
From Verif Require Import Py QirModel.
Import ListNotations.

Section Spec.
Variable P : Type.
Variable D : Type.
Variable peq : P -> P -> bool.
Variable deq : D -> D -> Prop.              (* equal doubles: 0.0 and -0.0 are *)

(** Two arguments of one sort. *)
Definition sort_eq (a b : arg P) : Prop :=
  match a, b with
  | ANum _ _, ANum _ _ | AQubit _ _, AQubit _ _ | AResult _ _, AResult _ _ => True
  | _, _ => False
  end.
Definition numbers (args : list (arg P)) : list P := flat_map (fun a => match a with ANum _ p => [p] | _ => [] end) args.

(** The same name and type, as many arguments of each sort, in whatever order, and the same numbers. *)
Definition alike (x y : instr P) : Prop :=
  i_name P x = i_name P y /\ i_type P x = i_type P y /\
  (exists l, Permutation l (i_args P y) /\ Forall2 sort_eq (i_args P x) l) /\
  Forall2 (fun p q => peq p q = true) (numbers (i_args P x)) (numbers (i_args P y)).

(** Two arguments of calls: equal doubles, or two qubits, or two results. *)
Definition carg_alike (a b : carg D) : Prop :=
  match a, b with
  | CDouble _ d, CDouble _ e => deq d e
  | CQubit _ _, CQubit _ _ | CResult _ _, CResult _ _ => True
  | _, _ => False
  end.
End Spec.

(** Vocabulary for statements about operations, bits and contexts. *)
From Coq Require Import List ZArith String Bool Arith.
From Verif Require Import Py RegisterModel WorldModel WorldSpec.
Import ListNotations.
Local Open Scope nat_scope.

Section Spec2.
Variable P : Type.
Variable ptrue : P -> bool.
Variable peqb : P -> P -> bool.
Notation world := (world P).

(** Two items are the same, or one is a number and the other a bit that holds it. *)
Definition same_item (w : world) (u v : item) : Prop :=
  u = v \/
  (exists b z n, (u = IBit b /\ v = IInt z \/ u = IInt z /\ v = IBit b) /\
     bit_value P w b = Some n /\ z = (if n then 1%Z else 0%Z)).
Definition same_qubits (w : world) (a b : option (list item)) : Prop :=
  match a, b with
  | None, None => True
  | Some l, Some m => Forall2 (same_item w) l m
  | _, _ => False
  end.

(** Two parameters are the same: equal numbers, variables of one name, or a variable holding the number
    (unless that number counts as false). *)
Definition same_param (w : world) (a b : param P) : Prop :=
  match a, b with
  | PNum p, PNum q => peqb p q = true
  | PVar u, PVar v => exists s x y, nth_error (w_var w) u = Some (s, x) /\ nth_error (w_var w) v = Some (s, y)
  | PVar v, PNum p | PNum p, PVar v =>
      exists s q, nth_error (w_var w) v = Some (s, Some q) /\ ptrue q = true /\ peqb q p = true
  end.

(** Operations with parameters. *)
Definition parametrised (w : world) (o : nat) : Prop :=
  exists y k, nth_error (w_op w) o = Some y /\ nth_error (w_cls w) (o_cls y) = Some k /\
    (k_kind k = KParam \/ k_kind k = KParCtrl).

(** The same gate on the same qubits and, if [el] has parameters, with the same parameters. *)
Definition same_op (w : world) (el op : nat) : Prop :=
  exists x y kx ky, nth_error (w_op w) el = Some x /\ nth_error (w_op w) op = Some y /\
    nth_error (w_cls w) (o_cls x) = Some kx /\ nth_error (w_cls w) (o_cls y) = Some ky /\
    k_name kx = k_name ky /\ same_qubits w (o_qubits y) (o_qubits x) /\
    (parametrised w el -> Forall2 (same_param w) (o_params y) (o_params x)).

(** What [remove] looks for, and which operations can be compared with [op]. *)
Definition matches (w : world) (op el : nat) : Prop := el = op \/ same_op w el op.
Definition comparable (w : world) (op el : nat) : Prop := el = op \/ (parametrised w el -> parametrised w op).

(** The value of bit [b] after a call on a bit, which held [v] before. *)
Definition bit_after (b : nat) (v : option bool) (x : call P) : option bool :=
  match x with
  | CBitSet _ b' n force => if Nat.eqb b' b then match v with Some _ => if force then Some n else v | None => Some n end else v
  | CBitReset _ b' => if Nat.eqb b' b then None else v
  | _ => v
  end.
(** Calls that change no bit but those they name. *)
Definition no_reset (x : call P) : Prop := match x with CReset _ _ true => False | _ => True end.
Definition spares_bit (b : nat) (x : call P) : Prop :=
  match x with
  | CBitSet _ b' _ _ | CBitReset _ b' => b' <> b
  | CReset _ _ true => False
  | _ => True
  end.

(** Calls one after the other, going on after an exception. *)
Fixpoint tries (l : list (call P)) : prog P :=
  match l with [] => Skip | x :: l' => Seq (Try (Do x)) (tries l') end.

(** The number of qubits a class insists on, whatever its constructor is given. *)
Definition insists (w : world) (k n : nat) : Prop :=
  exists x, nth_error (w_cls w) k = Some x /\ k_numq x = Some n /\
    (k_kind x = KCtrl \/ k_kind x = KParCtrl -> n <> 0).

(** A number of qubits is given to the constructor of class [k]. *)
Definition gives (a : qargs) (n : nat) : Prop :=
  match a with
  | AQ (Some l) => List.length l = n /\ n <> 0
  | ACT (Some c) (Some t) => c <> [] /\ t <> [] /\ List.length c + List.length t = n
  | _ => False
  end.
(** The arguments fit the signature of the constructor, and there are as many parameters as the class
    asks for. *)
Definition fits_signature (x : cls) (ps : option (list (param P))) (a : qargs) : Prop :=
  match k_kind x, ps, a with
  | KPlain, None, AQ _ | KMeas, None, AQ _ | KCtrl, None, _ => True
  | KParam, Some l, AQ _ | KParCtrl, Some l, _ => k_nparams x = Some (List.length l)
  | _, _, _ => False
  end.

(** Calls that neither unlock nor reset circuit [c] nor remove an operation from it. *)
Definition spares (c : nat) (x : call P) : Prop :=
  match x with
  | CUnlock _ d | CReset _ d _ | CRemove _ d _ => d <> c
  | _ => True
  end.

(** Nobody sets variables by hand, and parametric circuits are called with enough parameters. *)
Definition enough (w : world) (x : call P) : Prop :=
  match x with
  | CVarSet _ _ => False
  | CCallPar t ps _ _ => forall y, nth_error (w_circ w) t = Some y -> List.length (c_vars y) <= List.length ps
  | _ => True
  end.

(** The calls that build operations; calling a circuit builds some if it has some. *)
Definition builds (w : world) (x : call P) : Prop :=
  match x with
  | CConstruct _ _ _ | CCallOp _ _ _ => True
  | CCall _ t _ _ | CCallPar t _ _ _ => exists y, nth_error (w_circ w) t = Some y /\ c_ops y <> []
  | _ => False
  end.
End Spec2.

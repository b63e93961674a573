(** What evaluating a parametric circuit should do, in terms of tables of values only. *)
From Coq Require Import List Bool Arith.
From Verif Require Import Py RegisterModel WorldModel.
Import ListNotations.

Section Spec.
Variable P : Type.
Variable ptrue : P -> bool.
Variable w : world P.

(** The value that the parameter at index [j] of the operation at position [i] gets: a number stays; a variable takes the
    number given at [i], [j] if row [i] has any numbers, and otherwise its own value, which must not be a zero. *)
Inductive bound (given : list (list P)) (i j : nat) : param P -> P -> Prop :=
| bound_number x : bound given i j (PNum x) x
| bound_given v row x : nth_error given i = Some row -> nth_error row j = Some x -> bound given i j (PVar v) x
| bound_value v s x : given = [] \/ nth_error given i = Some [] ->
    nth_error (w_var w) v = Some (s, Some x) -> ptrue x = true -> bound given i j (PVar v) x.

(** All attributes but the parameters. *)
Definition same_but_parameters (x y : opobj P) : Prop :=
  o_cls x = o_cls y /\ o_qubits x = o_qubits y /\ o_numq x = o_numq y /\ o_control x = o_control y /\
  o_target x = o_target y /\ o_bits x = o_bits y /\ o_cond x = o_cond y.

(** [y] is [x], at position [i], with all its parameters bound. *)
Definition evaluated (given : list (list P)) (i : nat) (x y : opobj P) : Prop :=
  same_but_parameters x y /\ List.length (o_params y) = List.length (o_params x) /\
  forall j p, nth_error (o_params x) j = Some p -> exists q, bound given i j p q /\ nth_error (o_params y) j = Some (PNum q).

Definition parametric (x : opobj P) : Prop :=
  exists k, nth_error (w_cls w) (o_cls x) = Some k /\ (k_kind k = KParam \/ k_kind k = KParCtrl).

(** The operation at position [i] can be evaluated. *)
Definition can_bind (given : list (list P)) (i : nat) (x : opobj P) : Prop :=
  (given = [] \/ i < List.length given) /\
  (parametric x -> forall j p, nth_error (o_params x) j = Some p -> exists q, bound given i j p q).
End Spec.

(** What a simulation reads from and writes to classical bits, by position in the circuit. *)
Section Bits.
Variable P A : Type.
(** The operations, and whose bits each refers to *)
Variable ops : list (opobj P * A).
Variable measures : opobj P -> Prop.
(** [out i j]: the j-th outcome of the measurement at position [i] *)
Variable out : nat -> nat -> bool.
Variable init : A -> item -> option bool.
(** Which operations are applied *)
Variable l : list bool.

(** The outcome of the j-th qubit measured by [x] goes to the bit [b]. *)
Definition goes (x : opobj P) (j : nat) (b : item) : Prop :=
  exists qs bs, o_qubits x = Some qs /\ o_bits x = Some bs /\ j < List.length qs /\ nth_error bs j = Some b.

(** The operation at position [i] writes outcome [j] to [b], and nothing over it. *)
Definition writes (i j : nat) (a : A) (b : item) : Prop :=
  exists x, nth_error ops i = Some (x, a) /\ nth_error l i = Some true /\ measures x /\ goes x j b /\
    forall j', j < j' -> ~ goes x j' b.

(** The value that [b] has before position [i] *)
Inductive holds : nat -> A -> item -> option bool -> Prop :=
| holds_first a b : holds 0 a b (init a b)
| holds_written i j a b : writes i j a b -> holds (S i) a b (Some (out i j))
| holds_kept i a b v : holds i a b v -> (forall j, ~ writes i j a b) -> holds (S i) a b v.

(** An operation is applied unless one of its conditions is a bit with value 0. *)
Definition applies : Prop :=
  List.length l = List.length ops /\
  forall i x a, nth_error ops i = Some (x, a) ->
    (nth_error l i = Some true <->
     forall bs b, o_cond x = Some bs -> In b bs -> ~ holds i a b (Some false)).
End Bits.

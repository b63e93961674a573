(** Specification of joint outcomes: their probabilities and the random numbers that lead to them. *)
From Coq Require Import List NArith Bool Reals Ascii String.
From Verif Require Import CRing Cplx KernelSpec SimModel SimSpec SampleModel.
Import ListNotations.
Local Open Scope list_scope.
Local Open Scope R_scope.

(** The qubits that are sampled: those given, or those that were measured. *)
Definition chosen (mid : nat) (m : mem Ccring) (a : qsel) : option (list N) :=
  match a with QNone => Some (m_idx Ccring m mid) | QMany l => Some l | QOne _ => None end.

(** Basis state [i] shows the outcomes [os] on the qubits [ts]. *)
Fixpoint shows (n i : N) (ts : list N) (os : list bool) : bool :=
  match ts, os with
  | t :: ts', o :: os' => Bool.eqb (qbit false n i t) o && shows n i ts' os'
  | [], [] => true
  | _, _ => false
  end.

(** The joint probability of the outcomes [os] on the qubits [ts] in the state [v]. *)
Definition joint (n : N) (ts : list N) (os : list bool) (v : N -> C) : R :=
  Rsum (filter (fun i => shows n i ts os) (Nrange (2 ^ n))) (fun i => Cnorm2 (v i)).

(** Boxes of random numbers: one interval [a, b) per random number. *)
Definition box := list (R * R).
Definition inside (us : list R) (b : box) : Prop := Forall2 (fun u ab => fst ab <= u < snd ab) us b.
Definition volume (b : box) : R := fold_right (fun ab x => (snd ab - fst ab) * x) 1 b.
Definition in_unit (b : box) : Prop := Forall (fun ab => 0 <= fst ab <= snd ab /\ snd ab <= 1) b.

(** All lists of [k] outcomes. *)
Fixpoint outcomes (k : nat) : list (list bool) :=
  match k with
  | O => [[]]
  | S k' => map (cons false) (outcomes k') ++ map (cons true) (outcomes k')
  end.

Definition product (l : list R) : R := fold_right Rmult 1 l.

(** In how many of the samples the [k]-th outcome is 1. *)
Definition ones (k : nat) (oss : list (list bool)) : nat := List.length (filter (fun os => nth k os false) oss).
(** A sample written with the digits 0 and 1. *)
Definition digits (os : list bool) : String.string :=
  String.string_of_list_ascii (map (fun o : bool => if o then "1" else "0")%char os).

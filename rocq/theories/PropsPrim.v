(** C10: equality and hashes of qubits, bits and variables. *)
From Coq Require Import List ZArith Ascii String Bool Arith.
From Verif Require Import Py CounterModel CounterProofs PrimModel PrimSpec PrimProofs.
Import ListNotations.
Local Open Scope string_scope.
Local Open Scope list_scope.

(** Within a class [==] is an equivalence, whatever numbers are and whatever values are set. *)
Theorem C10_equivalence :
  forall (N : Type) (neqb : N -> N -> bool) (ntrue : N -> bool) (digit : bool -> N),
    equivalence (fun p q => same_class N p q /\ py_eq N neqb ntrue digit (VPrim N p) (VPrim N q) = true).
Proof. exact prim_equivalence. Qed.
Print Assumptions C10_equivalence.

(** Equal objects of one class hash alike. *)
Theorem C10_hash :
  forall (N : Type) (neqb : N -> N -> bool) (ntrue : N -> bool) (digit : bool -> N) (shash : string -> Z) (nhash : N -> Z) p q,
    same_class N p q -> py_eq N neqb ntrue digit (VPrim N p) (VPrim N q) = true ->
    py_hash N shash nhash (VPrim N p) = py_hash N shash nhash (VPrim N q).
Proof. exact (fun N e t d sh nh => prim_hash N e t d sh nh). Qed.
Print Assumptions C10_hash.

(** [==] is symmetric over all primitives, numbers and strings, if it is on numbers. *)
Theorem C10_symmetric :
  forall (N : Type) (neqb : N -> N -> bool) (ntrue : N -> bool) (digit : bool -> N),
    (forall m n, neqb m n = neqb n m) ->
    forall a b, py_eq N neqb ntrue digit a b = py_eq N neqb ntrue digit b a.
Proof. exact prim_symmetric. Qed.
Print Assumptions C10_symmetric.

(** After any program, two qubits (or two bits) are equal only if they are the same object. *)
Theorem C10_same_object :
  forall (N : Type) (neqb : N -> N -> bool) (ntrue : N -> bool) (digit : bool -> N)
    (alphanum : list ascii) (xs : list (pcall N)) (len bat : option nat) (a b : nat) p q,
    NoDup alphanum ->
    nth_error (snd (pruns N alphanum xs (reset alphanum len bat, []))) a = Some p ->
    nth_error (snd (pruns N alphanum xs (reset alphanum len bat, []))) b = Some q ->
    has_id N p -> same_class N p q ->
    (py_eq N neqb ntrue digit (VPrim N p) (VPrim N q) = true <-> a = b).
Proof. exact objects_differ. Qed.
Print Assumptions C10_same_object.

(** Setting labels and values, resetting them and making more objects changes neither the equality of
    two objects of one class nor their hashes. *)
Theorem C10_lasting :
  forall (N : Type) (neqb : N -> N -> bool) (ntrue : N -> bool) (digit : bool -> N) (shash : string -> Z) (nhash : N -> Z)
    (alphanum : list ascii) (xs : list (pcall N)) (h : pheap N) (a b : nat) p q,
    nth_error (snd h) a = Some p -> nth_error (snd h) b = Some q -> same_class N p q ->
    exists p' q',
      nth_error (snd (pruns N alphanum xs h)) a = Some p' /\
      nth_error (snd (pruns N alphanum xs h)) b = Some q' /\
      same_class N p' q' /\
      py_eq N neqb ntrue digit (VPrim N p') (VPrim N q') = py_eq N neqb ntrue digit (VPrim N p) (VPrim N q) /\
      py_hash N shash nhash (VPrim N p') = py_hash N shash nhash (VPrim N p) /\
      py_hash N shash nhash (VPrim N q') = py_hash N shash nhash (VPrim N q).
Proof. exact (fun N e t d sh nh al => equality_lasts N e t d al sh nh). Qed.
Print Assumptions C10_lasting.

(** ** Examples and refutations, with integers as numbers *)
Definition zdig (b : bool) : Z := if b then 1%Z else 0%Z.
Definition ztruth (z : Z) : bool := negb (Z.eqb z 0).
Notation zeq := (py_eq Z Z.eqb ztruth zdig).
Notation o := (VPrim Z).

(** Two variables of one name with different values, and a bit relabelled and set, as the theorems cover. *)
Example C10_equivalence_case :
  zeq (o (PVariable Z "a" (Some 3%Z))) (o (PVariable Z "a" None)) = true /\
  zeq (o (PVariable Z "a" (Some 3%Z))) (o (PVariable Z "b" (Some 3%Z))) = false /\
  zeq (o (PBit Z "x" "0abc" (Some true))) (o (PBit Z "y" "0abc" None)) = true /\
  zeq (o (PBit Z "x" "0abc" (Some true))) (o (PVariable Z "a" (Some 1%Z))) = true /\
  zeq (o (PQubit Z "x" "0abc")) (o (PBit Z "x" "0abc" None)) = false.
Proof. vm_compute. repeat split. Qed.

Definition abc : list ascii := ["a"; "b"; "c"; "d"; "e"]%char.
Definition some_calls : list (pcall Z) :=
  [PNewQubit Z "q" 0; PNewBit Z "c" 3; PNewVariable Z "v"; PNewQubit Z "q" 1; PNewBit Z "c" 0;
   PBitSet Z 1 true false; PBitSet Z 1 false false; PVarSet Z 2 1%Z; PSetLabel Z 0 "p"; PBitReset Z 4; PBitReset Z 0; PRefresh Z].
Definition after_calls := snd (pruns Z abc some_calls (reset abc (Some 2) (Some 3), [])).
Example C10_same_object_case :
  NoDup abc /\ List.length after_calls = 5 /\
  (exists i j, nth_error after_calls 0 = Some (PQubit Z "p" i) /\ nth_error after_calls 3 = Some (PQubit Z "q" j)) /\
  (exists i, nth_error after_calls 1 = Some (PBit Z "c" i (Some true))).
Proof.
  split; [|vm_compute; repeat split; repeat eexists].
  repeat constructor; cbn; intros H; repeat destruct H as [H|H]; try discriminate H; exact H.
Qed.

(** Across classes [==] is not transitive: two bits with value 1 both equal the number 1. *)
Theorem C10_transitive_refuted :
  exists a b c, zeq a b = true /\ zeq b c = true /\ zeq a c = false.
Proof. exists (o (PBit Z "x" "i" (Some true))), (VNum Z 1%Z), (o (PBit Z "x" "j" (Some true))). vm_compute. auto. Qed.
Print Assumptions C10_transitive_refuted.

(** Across classes equal values need not hash alike: whatever the hash of numbers is, some hash of
    strings separates a bit from the number it equals, and a variable from a number or from a bit. *)
Theorem C10_hash_refuted :
  forall nhash : Z -> Z, exists shash : string -> Z,
    (exists a b, zeq (o a) (VNum Z b) = true /\ has_id Z a /\ py_hash Z shash nhash (o a) <> py_hash Z shash nhash (VNum Z b)) /\
    (exists a b, zeq (o a) (VNum Z b) = true /\ ~ has_id Z a /\ py_hash Z shash nhash (o a) <> py_hash Z shash nhash (VNum Z b)) /\
    (exists a b, zeq (o a) (o b) = true /\ py_hash Z shash nhash (o a) <> py_hash Z shash nhash (o b)).
Proof.
  intros nhash. exists (fun s => if String.eqb s "v" then (nhash 1 + 1)%Z else (nhash 1 + 2)%Z). repeat split.
  - exists (PBit Z "x" "i" (Some true)), 1%Z. cbn. repeat split. intros H. assert (nhash 1%Z + 2 - nhash 1%Z = 0)%Z by (rewrite H; apply Z.sub_diag). rewrite Z.add_simpl_l in H0. discriminate.
  - exists (PVariable Z "v" (Some 1%Z)), 1%Z. cbn. repeat split; [tauto|]. intros H. assert (nhash 1%Z + 1 - nhash 1%Z = 0)%Z by (rewrite H; apply Z.sub_diag). rewrite Z.add_simpl_l in H0. discriminate.
  - exists (PBit Z "x" "i" (Some true)), (PVariable Z "v" (Some 1%Z)). cbn. repeat split. intros H. apply Z.add_cancel_l in H. discriminate.
Qed.
Print Assumptions C10_hash_refuted.

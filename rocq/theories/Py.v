(** Shared vocabulary of the model: Python exceptions as values, and
    insertion-ordered dictionaries. *)
From Coq Require Import List Bool Arith Lia.
Import ListNotations.
Set Implicit Arguments.

(** The exception classes the modelled code can raise. *)
Inductive exn :=
| ValueError | TypeError | IndexError | KeyError | AttributeError
| RuntimeError | OverflowError | NotImplementedError
| CircuitError      (* dwave/gate/circuit.py:49 *)
| RegisterError     (* dwave/gate/registers/registers.py:37 *)
| CompileError      (* dwave/gate/qir/compiler.py *)
| InstructionError  (* dwave/gate/qir/instructions.py *)
| AssertionError
| OperationError    (* dwave/gate/operations/base.py *)
| Undefined         (* not an exception: C behaviour is undefined here; no theorem promises anything
                       about the code in this case *)
| OutOfFuel.        (* never raised by the code: a loop bound of the model was too small; every
                       theorem about a fuelled function excludes it *)

Inductive res (A : Type) :=
| Ok : A -> res A
| Err : exn -> res A.
Arguments Ok {A} _.
Arguments Err {A} _.

Definition is_ok {A} (r : res A) : bool := match r with Ok _ => true | Err _ => false end.

Definition bind {A B} (r : res A) (f : A -> res B) : res B :=
  match r with Ok a => f a | Err e => Err e end.

Notation "'let?' x ':=' r 'in' k" := (bind r (fun x => k)) (at level 200, x pattern, right associativity).

(** [Forall2]-free sequencing of results over a list, as a Python loop that stops at the first
    exception. *)
Fixpoint mapM {A B} (f : A -> res B) (l : list A) : res (list B) :=
  match l with
  | [] => Ok []
  | x :: xs => let? y := f x in let? ys := mapM f xs in Ok (y :: ys)
  end.

(** Python [dict]: an association list in insertion order.  [d[k] = v] overwrites in place or
    appends; [pop] removes. *)
Section Dict.
Variables K V : Type.
Variable eqb : K -> K -> bool.

Definition dict := list (K * V).

Fixpoint dget (k : K) (d : dict) : option V :=
  match d with
  | [] => None
  | (k', v) :: d' => if eqb k k' then Some v else dget k d'
  end.

Definition dmem (k : K) (d : dict) : bool :=
  match dget k d with Some _ => true | None => false end.

Fixpoint dset (k : K) (v : V) (d : dict) : dict :=
  match d with
  | [] => [(k, v)]
  | (k', v') :: d' => if eqb k k' then (k', v) :: d' else (k', v') :: dset k v d'
  end.

Fixpoint ddel (k : K) (d : dict) : dict :=
  match d with
  | [] => []
  | (k', v') :: d' => if eqb k k' then ddel k d' else (k', v') :: ddel k d'
  end.

Hypothesis eqb_spec : forall a b, reflect (a = b) (eqb a b).

Lemma dget_dset_same k v d : dget k (dset k v d) = Some v.
Proof.
  induction d as [|[k' v'] d IH]; simpl.
  - destruct (eqb_spec k k); congruence.
  - destruct (eqb_spec k k') as [->|n]; simpl.
    + destruct (eqb_spec k' k'); congruence.
    + destruct (eqb_spec k k'); [congruence|exact IH].
Qed.

Lemma dget_dset_other k k' v d : k <> k' -> dget k' (dset k v d) = dget k' d.
Proof.
  intros Hn. induction d as [|[a w] d IH]; simpl.
  - destruct (eqb_spec k' k); congruence.
  - destruct (eqb_spec k a) as [->|n]; simpl.
    + destruct (eqb_spec k' a); congruence.
    + destruct (eqb_spec k' a); [reflexivity|exact IH].
Qed.

Lemma dget_ddel_same k d : dget k (ddel k d) = None.
Proof.
  induction d as [|[a w] d IH]; simpl; [reflexivity|].
  destruct (eqb_spec k a); simpl; [exact IH|].
  destruct (eqb_spec k a); [congruence|exact IH].
Qed.

Lemma dget_ddel_other k k' d : k <> k' -> dget k' (ddel k d) = dget k' d.
Proof.
  intros Hn. induction d as [|[a w] d IH]; simpl; [reflexivity|].
  destruct (eqb_spec k a) as [->|n]; simpl.
  - destruct (eqb_spec k' a); [congruence|exact IH].
  - destruct (eqb_spec k' a); [reflexivity|exact IH].
Qed.

Lemma dget_In k v d : dget k d = Some v -> In (k, v) d.
Proof.
  induction d as [|[a w] d IH]; simpl; [discriminate|].
  destruct (eqb_spec k a) as [->|n]; [intros [= ->]; now left|].
  intros H; right; auto.
Qed.

Lemma dget_None k d : dget k d = None <-> ~ In k (map fst d).
Proof.
  induction d as [|[a w] d IH]; simpl; [tauto|].
  destruct (eqb_spec k a) as [->|n].
  - split; [discriminate|tauto].
  - rewrite IH. split; [intros H [E|E]; [congruence|tauto]|tauto].
Qed.

Lemma In_dget k v d : NoDup (map fst d) -> In (k, v) d -> dget k d = Some v.
Proof.
  induction d as [|[a w] d IH]; simpl; [tauto|].
  intros Hnd Hin. inversion Hnd as [|? ? Hna Hnd']; subst.
  destruct Hin as [E|Hin].
  - inversion E; subst. destruct (eqb_spec k k); congruence.
  - destruct (eqb_spec k a) as [->|n]; [|auto].
    exfalso. apply Hna. apply in_map_iff. now exists (a, v).
Qed.

Lemma map_fst_dset k v d :
  map fst (dset k v d) = if dmem k d then map fst d else map fst d ++ [k].
Proof.
  unfold dmem. induction d as [|[a w] d IH]; simpl; [reflexivity|].
  destruct (eqb_spec k a) as [->|n]; simpl; [reflexivity|].
  rewrite IH. destruct (dget k d); reflexivity.
Qed.

Lemma NoDup_dset k v d : NoDup (map fst d) -> NoDup (map fst (dset k v d)).
Proof.
  intros H. rewrite map_fst_dset. unfold dmem.
  destruct (dget k d) eqn:E; [exact H|].
  apply dget_None in E.
  apply NoDup_remove_1 with (l' := @nil K) (a := k) || idtac.
  rewrite <- (rev_involutive (map fst d ++ [k])).
  apply NoDup_rev. rewrite rev_app_distr. simpl. constructor.
  - rewrite <- in_rev. exact E.
  - apply NoDup_rev. exact H.
Qed.

Lemma In_map_fst_ddel k a d : In a (map fst (ddel k d)) <-> In a (map fst d) /\ a <> k.
Proof.
  induction d as [|[b w] d IH]; simpl; [tauto|].
  destruct (eqb_spec k b) as [->|n]; simpl; rewrite IH; intuition congruence.
Qed.

Lemma NoDup_ddel k d : NoDup (map fst d) -> NoDup (map fst (ddel k d)).
Proof.
  induction d as [|[b w] d IH]; simpl; [auto|].
  intros H. inversion H as [|? ? Hn Hd]; subst.
  destruct (eqb_spec k b); simpl; [auto|].
  constructor; [|auto]. rewrite In_map_fst_ddel. tauto.
Qed.

End Dict.

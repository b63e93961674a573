(** Words for mixed properties. *)
From Coq Require Import List String Bool Arith.
From Verif Require Import Py MixedModel.
Import ListNotations.

Section MixedSpec.
Variables V env : Type.
Notation mworld := (mworld V env).

(** The class statement or an assignment put [x] under [n] into class [k] itself. *)
Definition owns (w : mworld) (k : nat) (n : string) (x : entry V env) : Prop :=
  exists K, nth_error (m_cls V env w) k = Some K /\ dget String.eqb n (k_dict V env K) = Some x.
(** [x] is what class [c] has under [n]: the first class of the order that has [n] has [x]. *)
Definition inherits (w : mworld) (c : nat) (n : string) (x : entry V env) : Prop :=
  exists K before k after,
    nth_error (m_cls V env w) c = Some K /\ k_mro V env K = before ++ k :: after /\
    owns w k n x /\ forall k' y, In k' before -> ~ owns w k' n y.
(** The classes [c] inherits from exist. *)
Definition bases_exist (w : mworld) (c : nat) : Prop :=
  forall K k, nth_error (m_cls V env w) c = Some K -> In k (k_mro V env K) -> k < List.length (m_cls V env w).
Definition locks (w : mworld) (k : nat) (n : string) : Prop :=
  exists K, nth_error (m_cls V env w) k = Some K /\ In n (k_locked V env K).
(** A statement that sets or deletes the name on a class that [c] inherits from, other than an
    assignment that the lock refuses. *)
Definition touches (w : mworld) (c : nat) (n : string) (x : mcall V env) : Prop :=
  exists K k, nth_error (m_cls V env w) c = Some K /\ In k (k_mro V env K) /\
    ((exists v, x = MSetClass V env k n v) /\ ~ locks w k n \/ x = MDelClass V env k n).
End MixedSpec.

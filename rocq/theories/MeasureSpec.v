(** Specification of measuring several qubits one after the other. *)
From Coq Require Import List NArith Bool Reals.
From Verif Require Import Py CRing Cplx KernelSpec SimModel SimSpec.
Import ListNotations.
Local Open Scope R_scope.

(** Qubits [ts] of the state [v] are measured in turn with random numbers [us]: outcome 0 exactly when the
    random number is below the probability of 0; the other half of the amplitudes disappears and the rest is
    scaled to total probability 1.  The outcomes are [os] and [w] is the final state. *)
Inductive collapses (n : N) : list N -> list R -> list bool -> (N -> C) -> (N -> C) -> Prop :=
| collapses_nil v w : (forall i, (i < 2 ^ n)%N -> w i = v i) -> collapses n [] [] [] v w
| collapses_cons t ts u us (o : bool) os v v' w :
    (o = false <-> u < prob false n t false v) ->
    0 < prob false n t o v ->
    (forall i, (i < 2 ^ n)%N ->
       v' i = if Bool.eqb (qbit false n i t) o then Cmul (RtoC (1 / sqrt (prob false n t o v))) (v i) else C0) ->
    collapses n ts us os v' w ->
    collapses n (t :: ts) (u :: us) (o :: os) v w.

(** Model of the arguments and results of Measurement.sample and of Measurement.expval (operations/base.py:701-760),
    on top of [SimModel.sample].  Means are exact. *)
From Coq Require Import List NArith Arith Bool Ascii String Reals.
From Verif Require Import Py CRing Cplx RegisterModel SimModel SimReal.
Import ListNotations.
Local Open Scope list_scope.

(** The argument [qubits]: nothing, a sequence, or a single index, which [sample] cannot iterate over although the
    docstring of [expval] (749-754) asks for one. *)
Inductive qsel := QNone | QMany (qs : list N) | QOne (q : N).

(** base.py:701-744: the state is looked at first; [max] of an integer is a TypeError. *)
Definition sample_list (n : N) (mid : nat) (m : mem Ccring) (a : qsel) (us : nat -> R) (num : nat)
  : res (list (list nat)) :=
  match a with
  | QNone => sample_C n mid m None us num
  | QMany qs => sample_C n mid m (Some qs) us num
  | QOne _ => match m_state Ccring m mid with None => Err CircuitError | Some _ => Err TypeError end
  end.

(** base.py:745-746: ["".join(map(str, s))] *)
Definition bitstring (s : list nat) : string := String.concat EmptyString (map py_str s).
Definition sample_bitstrings (n : N) (mid : nat) (m : mem Ccring) (a : qsel) (us : nat -> R) (num : nat)
  : res (list string) :=
  let? ss := sample_list n mid m a us num in Ok (map bitstring ss).

(** base.py:759-760: [np.transpose(samples).mean(axis=1).tolist()].  Without samples the array has one axis only
    and numpy raises AxisError, a ValueError. *)
Definition total (l : list nat) : nat := fold_right Nat.add 0 l.
Definition mean (l : list nat) : R := (INR (total l) / INR (List.length l))%R.
Definition transpose (ss : list (list nat)) : list (list nat) :=
  match ss with
  | [] => []
  | s :: _ => map (fun k => map (fun r => nth k r 0) ss) (seq 0 (List.length s))
  end.
Definition expval (n : N) (mid : nat) (m : mem Ccring) (a : qsel) (us : nat -> R) (num : nat) : res (list R) :=
  let? ss := sample_list n mid m a us num in
  match ss with
  | [] => Err ValueError
  | _ => Ok (map mean (transpose ss))
  end.

(** Model of Measurement.sample and Measurement.expval (operations/base.py:701-760) for any integers as qubit
    indices and as number of samples.  SimModel.v and SampleModel.v have counting numbers only. *)
From Coq Require Import List NArith ZArith Arith Bool Reals.
From Verif Require Import Py CRing Cplx SimModel SimReal SampleModel.
Import ListNotations.
Local Open Scope list_scope.

(** sample_qubit (simulator.pyx:176-205): the index is handed on as a [uint64_t]
    (operation_generation.py:420, 674), and Cython's conversion of a negative integer is an OverflowError. *)
Definition sample_qubit_int (n : N) (q : Z) (u : R) (v : N -> C) : res (nat * bool * (N -> C)) :=
  if Z.ltb q 0 then Err OverflowError
  else sample_qubit_C false n (Z.to_N q) u true v.

(** base.py:738-743, one pass of the loop; [us] supplies one random number for each sampled qubit. *)
Fixpoint once_int (n : N) (qs : list Z) (us : nat -> R) (k : nat) (v : N -> C) : res (list nat * nat) :=
  match qs with
  | [] => Ok ([], k)
  | q :: qs' =>
      let? (o, _, v') := sample_qubit_int n q (us k) v in
      let? (os, k') := once_int n qs' us (S k) v' in
      Ok (o :: os, k')
  end.
Fixpoint many_int (n : N) (qs : list Z) (us : nat -> R) (k num : nat) (v : N -> C) : res (list (list nat)) :=
  match num with
  | O => Ok []
  | S num' =>
      let? (os, k') := once_int n qs us k v in
      let? rest := many_int n qs us k' num' v in
      Ok (os :: rest)
  end.

(** base.py:719-747: [max(qubits) >= num_qubits] first; [range(num_samples)] is empty for negative numbers. *)
Definition sample_int (n : N) (mid : nat) (m : mem Ccring) (qs : option (list Z)) (us : nat -> R) (num : Z)
  : res (list (list nat)) :=
  match m_state Ccring m mid with
  | None => Err CircuitError
  | Some v =>
      match (match qs with Some l => l | None => map Z.of_N (m_idx Ccring m mid) end) with
      | [] => Err ValueError
      | q :: qs' =>
          if Z.leb (Z.of_N n) (fold_left Z.max qs' q) then Err ValueError
          else many_int n (q :: qs') us 0 (Z.to_nat num) v
      end
  end.

(** base.py:759-760, as in [SampleModel.expval]. *)
Definition expval_int (n : N) (mid : nat) (m : mem Ccring) (qs : option (list Z)) (us : nat -> R) (num : Z) : res (list R) :=
  let? ss := sample_int n mid m qs us num in
  match ss with
  | [] => Err ValueError
  | _ => Ok (map mean (transpose ss))
  end.

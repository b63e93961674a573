(** Properties C63 and C64: the distribution of measurement outcomes and samples; expectation values. *)
From Coq Require Import List NArith Arith Bool Lia Reals Lra String.
From Verif Require Import Py CRing Cplx KernelSpec SimModel SimSpec SimReal SimProofs7 MeasureSpec
  SampleModel SampleSpec SampleProofs SampleProofs2.
Import ListNotations.
Local Open Scope list_scope.
Local Open Scope R_scope.

(** ** C63: outcomes of several measured qubits follow the joint Born rule. *)

(** For every list of samples the random numbers that produce exactly these samples form a box inside the unit cube, and
    the volume of the box is the product of the joint probabilities of the samples: they are independent and distributed
    by the Born rule. *)
Theorem C63_samples_joint_born :
  forall (n : N) (mid : nat) (m : mem Ccring) (a : qsel) (v : N -> C) (ts : list N) (oss : list (list bool)),
    (n <= 30)%N -> m_state Ccring m mid = Some v -> normalised n v ->
    chosen mid m a = Some ts -> ts <> [] -> (forall q, In q ts -> (q < n)%N) ->
    (forall os, In os oss -> List.length os = List.length ts) ->
    exists b : box, List.length b = (List.length oss * List.length ts)%nat /\ in_unit b /\
      volume b = product (map (fun os => joint n ts os v) oss) /\
      forall us, (forall k, uniform (us k)) ->
        (sample_list n mid m a us (List.length oss) = Ok (map (map bit_nat) oss) <->
         inside (map us (seq 0 (List.length oss * List.length ts))) b).
Proof. exact sample_box. Qed.
Print Assumptions C63_samples_joint_born.

(** Every sample shows the qubits of one basis state of non-zero amplitude; in particular a qubit that is listed twice
    shows the same outcome twice. *)
Theorem C63_samples_possible :
  forall (n : N) (mid : nat) (m : mem Ccring) (a : qsel) (us : nat -> R) (num : nat) (v : N -> C) (ts : list N),
    (n <= 30)%N -> (forall k, uniform (us k)) -> m_state Ccring m mid = Some v -> normalised n v ->
    chosen mid m a = Some ts -> ts <> [] -> (forall q, In q ts -> (q < n)%N) ->
    exists oss, sample_list n mid m a us num = Ok (map (map bit_nat) oss) /\ List.length oss = num /\
      forall os, In os oss -> exists i, (i < 2 ^ n)%N /\ v i <> C0 /\ os = map (qbit false n i) ts.
Proof. exact sample_possible. Qed.
Print Assumptions C63_samples_possible.

(** Measuring qubits in turn: the outcomes are decided by a box of that volume, have positive joint probability, and the
    state that remains is the projection on the outcomes, scaled. *)
Theorem C63_measured_in_turn :
  forall (n : N) (ts : list N) (os : list bool) (v : N -> C),
    normalised n v -> List.length os = List.length ts ->
    (exists b : box, List.length b = List.length ts /\ in_unit b /\ volume b = joint n ts os v /\
       forall us, Forall uniform us -> List.length us = List.length ts ->
         ((exists w, collapses n ts us os v w) <-> inside us b)) /\
    forall us w, collapses n ts us os v w ->
      0 < joint n ts os v /\
      forall i, (i < 2 ^ n)%N ->
        w i = if shows n i ts os then Cmul (RtoC (1 / sqrt (joint n ts os v))) (v i) else C0.
Proof.
  exact (fun n ts os v Hv Hl => conj (collapses_box n ts os v Hv Hl)
           (fun us w Hc => collapses_joint n ts us os v w Hc Hv)).
Qed.
Print Assumptions C63_measured_in_turn.

(** The probabilities of all outcomes sum to 1, and those with a 1 for the k-th qubit to the probability of that qubit. *)
Theorem C63_marginals :
  forall (n : N) (ts : list N) (v : N -> C), normalised n v ->
    Rsum (outcomes (List.length ts)) (fun os => joint n ts os v) = 1 /\
    forall k t, nth_error ts k = Some t ->
      Rsum (outcomes (List.length ts)) (fun os => if nth k os false then joint n ts os v else 0) = prob false n t true v.
Proof. exact (fun n ts v H => conj (joint_total n ts v H) (fun k t => joint_marginal n ts v k t)). Qed.
Print Assumptions C63_marginals.

(** Two entangled qubits: equal outcomes with probability 1/2 each, different outcomes never. *)
Definition bell : N -> C := fun i =>
  if orb (N.eqb i 0) (N.eqb i 3) then RtoC (1 / sqrt 2) else C0.
Lemma half_norm : Cnorm2 (RtoC (1 / sqrt 2)) = / 2.
Proof. unfold Cnorm2, RtoC, Re, Im. cbn. rewrite inv_sqrt_sq by lra. lra. Qed.
Lemma zero_norm : Cnorm2 C0 = 0.
Proof. unfold Cnorm2, C0, Re, Im. cbn. ring. Qed.
Lemma bell_normalised : normalised 2 bell.
Proof.
  unfold normalised. change (Nrange (2 ^ 2)) with [0; 1; 2; 3]%N. unfold Rsum. cbn [fold_right].
  change (bell 0) with (RtoC (1 / sqrt 2)). change (bell 3) with (RtoC (1 / sqrt 2)).
  change (bell 1) with C0. change (bell 2) with C0. rewrite half_norm, zero_norm. lra.
Qed.
Definition bell_mem : mem Ccring :=
  mkMem Ccring (fun _ => None) 0 (fun _ => Some bell) (fun _ => [0; 1]%N) 0.

Example C63_example :
  normalised 2 bell /\ m_state Ccring bell_mem 0 = Some bell /\ chosen 0 bell_mem QNone = Some [0; 1]%N /\
  joint 2 [0; 1]%N [true; true] bell = / 2 /\ joint 2 [0; 1]%N [true; false] bell = 0.
Proof.
  split; [exact bell_normalised|]. split; [reflexivity|]. split; [reflexivity|].
  split; unfold joint; cbn [shows].
  - replace (filter _ _) with [3%N] by reflexivity. unfold Rsum. cbn [fold_right].
    change (bell 3) with (RtoC (1 / sqrt 2)). rewrite half_norm. lra.
  - replace (filter _ _) with [2%N] by reflexivity. unfold Rsum. cbn [fold_right].
    change (bell 2) with C0. rewrite zero_norm. lra.
Qed.

(** ** C64: expectation values and bit strings. *)

(** [expval] is the fraction of samples with outcome 1, and bit strings are the samples written as digits. *)
Theorem C64_fraction_of_ones_partial :
  forall (n : N) (mid : nat) (m : mem Ccring) (a : qsel) (us : nat -> R) (num : nat) (v : N -> C) (ts : list N),
    (n <= 30)%N -> (forall k, uniform (us k)) -> m_state Ccring m mid = Some v -> normalised n v ->
    chosen mid m a = Some ts -> ts <> [] -> (forall q, In q ts -> (q < n)%N) -> (0 < num)%nat ->
    exists oss, sample_list n mid m a us num = Ok (map (map bit_nat) oss) /\ List.length oss = num /\
      expval n mid m a us num = Ok (map (fun k => INR (ones k oss) / INR num) (seq 0 (List.length ts))) /\
      sample_bitstrings n mid m a us num = Ok (map digits oss).
Proof. exact expval_spec. Qed.
Print Assumptions C64_fraction_of_ones_partial.

(** Expectation values lie in [0, 1] and are exact for qubits whose outcome is certain. *)
Theorem C64_certain_outcomes :
  forall (n : N) (mid : nat) (m : mem Ccring) (a : qsel) (us : nat -> R) (num : nat) (v : N -> C) (ts : list N),
    (n <= 30)%N -> (forall k, uniform (us k)) -> m_state Ccring m mid = Some v -> normalised n v ->
    chosen mid m a = Some ts -> ts <> [] -> (forall q, In q ts -> (q < n)%N) -> (0 < num)%nat ->
    exists es, expval n mid m a us num = Ok es /\ List.length es = List.length ts /\
      forall k t e, nth_error ts k = Some t -> nth_error es k = Some e ->
        0 <= e <= 1 /\ (prob false n t true v = 0 -> e = 0) /\ (prob false n t true v = 1 -> e = 1).
Proof. exact expval_range. Qed.
Print Assumptions C64_certain_outcomes.

(** Every way to fail: no state, a single index, no or too large indices, no samples. *)
Theorem C64_errors :
  forall (n : N) (mid : nat) (m : mem Ccring) (a : qsel) (us : nat -> R) (num : nat),
    (m_state Ccring m mid = None -> sample_list n mid m a us num = Err CircuitError) /\
    (forall v, m_state Ccring m mid = Some v ->
      (chosen mid m a = None -> sample_list n mid m a us num = Err TypeError) /\
      (forall ts, chosen mid m a = Some ts -> ts = [] \/ (exists q, In q ts /\ (n <= q)%N) ->
         sample_list n mid m a us num = Err ValueError)) /\
    (forall e, sample_list n mid m a us num = Err e ->
       expval n mid m a us num = Err e /\ sample_bitstrings n mid m a us num = Err e) /\
    (forall ss, sample_list n mid m a us 0 = Ok ss -> expval n mid m a us 0 = Err ValueError).
Proof. exact sample_errors. Qed.
Print Assumptions C64_errors.

Example C64_example :
  normalised 2 bell /\ chosen 0 bell_mem (QMany [1; 0; 1]%N) = Some [1; 0; 1]%N /\
  ones 0 [[true; false]; [true; true]; [false; true]] = 2%nat /\ digits [true; false; true] = "101"%string.
Proof. split; [exact bell_normalised|]. repeat split. Qed.

(** The documented argument of [expval], one qubit (base.py:749-754), is never accepted. *)
Theorem C64_single_index_refuted :
  exists (m : mem Ccring) (v : N -> C), m_state Ccring m 0 = Some v /\ normalised 2 v /\
    forall us num, expval 2 0 m (QOne 0) us num = Err TypeError.
Proof. exists bell_mem, bell. split; [reflexivity|]. split; [exact bell_normalised|]. reflexivity. Qed.
Print Assumptions C64_single_index_refuted.

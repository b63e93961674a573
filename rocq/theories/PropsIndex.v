(** C86: samples and expectation values for any integers as arguments. *)
From Coq Require Import List NArith ZArith Arith Bool Lia Reals Lra.
From Verif Require Import Py CRing Cplx KernelSpec SimModel SimSpec SimReal SimProofs7 MeasureSpec SampleModel IndexModel IndexProofs.
From Verif Require PropsSample.
Import ListNotations.
Local Open Scope list_scope.

(** Too large indices and no indices are refused first, then nothing is sampled if no samples are asked for, then
    negative indices are refused; else the samples of C40 are drawn. *)
Theorem C86_sample :
  forall (n : N) (mid : nat) (m : mem Ccring) (qs : option (list Z)) (us : nat -> R) (num : Z) (v : N -> C),
    (n <= 30)%N -> (forall k, uniform (us k)) -> m_state Ccring m mid = Some v -> normalised n v ->
    let ts := match qs with Some l => l | None => map Z.of_N (m_idx Ccring m mid) end in
    (ts = [] \/ (exists q, In q ts /\ (Z.of_N n <= q)%Z) -> sample_int n mid m qs us num = Err ValueError) /\
    (ts <> [] -> (forall q, In q ts -> (q < Z.of_N n)%Z) ->
      ((num <= 0)%Z -> sample_int n mid m qs us num = Ok []) /\
      ((0 < num)%Z -> (exists q, In q ts /\ (q < 0)%Z) -> sample_int n mid m qs us num = Err OverflowError) /\
      ((forall q, In q ts -> (0 <= q)%Z) ->
        exists oss, sample_int n mid m qs us num = Ok (map (map bit_nat) oss) /\ List.length oss = Z.to_nat num /\
          forall j os, nth_error oss j = Some os ->
            exists w, collapses n (map Z.to_N ts) (map us (seq (j * List.length ts) (List.length ts))) os v w)).
Proof. exact sample_int_spec. Qed.
Print Assumptions C86_sample.

(** Without a state both fail. *)
Theorem C86_unmeasured :
  forall (n : N) (mid : nat) (m : mem Ccring) (qs : option (list Z)) (us : nat -> R) (num : Z),
    m_state Ccring m mid = None ->
    sample_int n mid m qs us num = Err CircuitError /\ expval_int n mid m qs us num = Err CircuitError.
Proof. exact sample_int_unmeasured. Qed.
Print Assumptions C86_unmeasured.

(** Expectation values fail as samples do, and without samples; for indices that are not negative they are
    those of C64. *)
Theorem C86_expval :
  forall (n : N) (mid : nat) (m : mem Ccring) (qs : option (list Z)) (us : nat -> R) (num : Z),
    (forall e, sample_int n mid m qs us num = Err e -> expval_int n mid m qs us num = Err e) /\
    (sample_int n mid m qs us num = Ok [] -> expval_int n mid m qs us num = Err ValueError) /\
    ((forall q, In q (match qs with Some l => l | None => [] end) -> (0 <= q)%Z) ->
     expval_int n mid m qs us num =
     expval n mid m (match qs with Some l => QMany (map Z.to_N l) | None => QNone end) us (Z.to_nat num)).
Proof. exact expval_int_spec. Qed.
Print Assumptions C86_expval.

(** Two entangled qubits, sampled by indices of every kind. *)
Example C86_case :
  m_state Ccring PropsSample.bell_mem 0 = Some PropsSample.bell /\ normalised 2 PropsSample.bell /\
  (forall us, (forall k, uniform (us k)) ->
    sample_int 2 0 PropsSample.bell_mem (Some [1; -1]%Z) us 3 = Err OverflowError /\
    sample_int 2 0 PropsSample.bell_mem (Some [-1]%Z) us (-3) = Ok [] /\
    sample_int 2 0 PropsSample.bell_mem (Some [-1; 2]%Z) us 3 = Err ValueError /\
    exists oss, sample_int 2 0 PropsSample.bell_mem (Some [1; 0]%Z) us 3 = Ok (map (map bit_nat) oss) /\ List.length oss = 3%nat).
Proof.
  split; [reflexivity|]. split; [exact PropsSample.bell_normalised|]. intros us Hu.
  assert (S := fun qs num => C86_sample 2 0 PropsSample.bell_mem qs us num PropsSample.bell ltac:(lia) Hu eq_refl PropsSample.bell_normalised).
  split.
  { apply (S (Some [1; -1]%Z) 3%Z); [discriminate| |lia|].
    - intros q [<-|[<-|[]]]; cbn; lia.
    - exists (-1)%Z. cbn. split; [auto|lia]. }
  split.
  { apply (S (Some [-1]%Z) (-3)%Z); [discriminate| |lia]. intros q [<-|[]]; cbn; lia. }
  split.
  { apply (S (Some [-1; 2]%Z) 3%Z). right. exists 2%Z. cbn. split; [auto|lia]. }
  destruct (S (Some [1; 0]%Z) 3%Z) as [_ H]. destruct H as (_ & _ & H); [discriminate|intros q [<-|[<-|[]]]; cbn; lia|].
  destruct H as (oss & E & Hl & _); [intros q [<-|[<-|[]]]; lia|]. exists oss. split; [exact E|exact Hl].
Qed.

(** A negative index does not count from the end, as it does in sequences of the language. *)
Theorem C86_from_the_end_refuted :
  exists (n : N) (mid : nat) (m : mem Ccring) (v : N -> C), m_state Ccring m mid = Some v /\ normalised n v /\
    forall us num, (forall k, uniform (us k)) -> (0 < num)%Z ->
      sample_int n mid m (Some [-1]%Z) us num <> sample_int n mid m (Some [Z.of_N n - 1]%Z) us num.
Proof.
  exists 2%N, 0%nat, PropsSample.bell_mem, PropsSample.bell. split; [reflexivity|]. split; [exact PropsSample.bell_normalised|].
  intros us num Hu Hn.
  assert (S := fun qs => C86_sample 2 0 PropsSample.bell_mem qs us num PropsSample.bell ltac:(lia) Hu eq_refl PropsSample.bell_normalised).
  destruct (S (Some [-1]%Z)) as [_ H]. destruct H as (_ & H & _); [discriminate|intros q [<-|[]]; cbn; lia|].
  rewrite (H Hn) by (exists (-1)%Z; cbn; split; [auto|lia]).
  destruct (S (Some [1]%Z)) as [_ H']. destruct H' as (_ & _ & H'); [discriminate|intros q [<-|[]]; cbn; lia|].
  destruct H' as (oss & E & _); [intros q [<-|[]]; lia|]. change (Z.of_N 2 - 1)%Z with 1%Z. rewrite E. discriminate.
Qed.
Print Assumptions C86_from_the_end_refuted.

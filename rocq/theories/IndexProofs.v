(** Proofs about samples with any integers as arguments. *)
From Coq Require Import List NArith ZArith Arith Bool Lia Reals.
From Verif Require Import Py CRing Cplx KernelSpec SimModel SimSpec SimReal SimProofs7 MeasureSpec SampleModel IndexModel.
Import ListNotations.
Local Open Scope list_scope.

Lemma max_least l : forall q b, (fold_left Z.max l q < b)%Z <-> (q < b)%Z /\ forall x, In x l -> (x < b)%Z.
Proof.
  induction l as [|y l IH]; intros q b; cbn [fold_left].
  - split; [intros H; split; [exact H|intros x []]|tauto].
  - rewrite IH. split.
    + intros [H1 H2]. split; [lia|]. intros x [<-|Hx]; [lia|auto].
    + intros [H1 H2]. split; [|intros x Hx; apply H2; now right]. specialize (H2 y (or_introl eq_refl)). lia.
Qed.

Notation once := (sample_once Ccring R Cgtb Cis0 Cinvsqrt).
Notation many := (sample_many Ccring R Cgtb Cis0 Cinvsqrt).

Lemma once_same n us qs : (forall q, In q qs -> (0 <= q)%Z) -> forall k v, once_int n qs us k v = once n (map Z.to_N qs) us k v.
Proof.
  induction qs as [|q qs IH]; intros H k v; [reflexivity|]. cbn [once_int sample_once map]. unfold sample_qubit_int.
  rewrite (proj2 (Z.ltb_ge q 0)) by (apply H; now left).
  fold sample_qubit_C. destruct (sample_qubit_C false n (Z.to_N q) (us k) true v) as [[[o b] w]|e]; [|reflexivity]. cbn [bind].
  rewrite IH; [reflexivity|]. intros x Hx. apply H. now right.
Qed.
Lemma many_same n us qs : (forall q, In q qs -> (0 <= q)%Z) -> forall num k v, many_int n qs us k num v = many n (map Z.to_N qs) us k num v.
Proof.
  intros H. induction num as [|num IH]; intros k v; [reflexivity|]. cbn [many_int sample_many]. rewrite once_same by exact H.
  destruct (once n (map Z.to_N qs) us k v) as [[os k']|e]; [|reflexivity]. cbn [bind]. now rewrite IH.
Qed.

Lemma first_negative (qs : list Z) : (exists q, In q qs /\ (q < 0)%Z) ->
  exists pre q post, qs = pre ++ q :: post /\ (q < 0)%Z /\ forall x, In x pre -> (0 <= x)%Z.
Proof.
  induction qs as [|x qs IH]; intros (q & Hq & Hn); [destruct Hq|].
  destruct (Z.ltb_spec x 0).
  - exists [], x, qs. repeat split; auto. intros y [].
  - destruct Hq as [<-|Hq]; [lia|]. destruct IH as (pre & z & post & -> & Hz & Hp); [eauto|].
    exists (x :: pre), z, post. repeat split; auto. intros y [<-|Hy]; auto.
Qed.
Lemma once_negative n us q post : (q < 0)%Z -> forall pre, (forall x, In x pre -> (0 <= x)%Z) -> forall k v os k',
  once n (map Z.to_N pre) us k v = Ok (os, k') -> once_int n (pre ++ q :: post) us k v = Err OverflowError.
Proof.
  intros Hq. induction pre as [|x pre IH]; intros Hp k v os k' E; cbn [app once_int map sample_once] in *; unfold sample_qubit_int.
  - now rewrite (proj2 (Z.ltb_lt q 0) Hq).
  - rewrite (proj2 (Z.ltb_ge x 0)) by (apply Hp; now left). fold sample_qubit_C in E.
    destruct (sample_qubit_C false n (Z.to_N x) (us k) true v) as [[[o b] w]|e]; [|discriminate E]. cbn [bind] in *.
    destruct (once n (map Z.to_N pre) us (S k) w) as [[os1 k1]|e] eqn:E1; [|discriminate E].
    rewrite (IH (fun y Hy => Hp y (or_intror Hy)) (S k) w os1 k1 E1). reflexivity.
Qed.

(** What is sampled. *)
Definition listed (mid : nat) (m : mem Ccring) (qs : option (list Z)) : list Z :=
  match qs with Some l => l | None => map Z.of_N (m_idx Ccring m mid) end.

Lemma sample_int_cases n mid (m : mem Ccring) qs us num v : m_state Ccring m mid = Some v ->
  let ts := listed mid m qs in
  sample_int n mid m qs us num =
    match ts with
    | [] => Err ValueError
    | _ => if existsb (fun q => Z.leb (Z.of_N n) q) ts then Err ValueError else many_int n ts us 0 (Z.to_nat num) v
    end.
Proof.
  intros Hm ts. unfold sample_int. rewrite Hm. fold (listed mid m qs). fold ts. destruct ts as [|q ts']; [reflexivity|].
  replace (Z.leb (Z.of_N n) (fold_left Z.max ts' q)) with (existsb (fun x => Z.leb (Z.of_N n) x) (q :: ts')); [reflexivity|].
  apply eq_true_iff_eq. rewrite existsb_exists, Z.leb_le. split.
  - intros (x & Hx & Hl). apply Z.leb_le in Hl. destruct (Z.lt_ge_cases (fold_left Z.max ts' q) (Z.of_N n)) as [H|H]; [|lia].
    apply max_least in H. destruct H as [H1 H2]. destruct Hx as [<-|Hx]; [lia|]. specialize (H2 x Hx). lia.
  - intros H. destruct (existsb (fun x => Z.leb (Z.of_N n) x) (q :: ts')) eqn:E; [now apply existsb_exists in E|].
    exfalso. assert (K : (fold_left Z.max ts' q < Z.of_N n)%Z); [|lia]. apply max_least.
    assert (A : forall x, In x (q :: ts') -> (x < Z.of_N n)%Z).
    { intros x Hx. destruct (Z.lt_ge_cases x (Z.of_N n)) as [|G]; [assumption|]. exfalso.
      assert (existsb (fun y => Z.leb (Z.of_N n) y) (q :: ts') = true) by (apply existsb_exists; exists x; split; [exact Hx|now apply Z.leb_le]). congruence. }
    split; [apply A; now left|]. intros x Hx. apply A. now right.
Qed.

Theorem sample_int_spec n mid (m : mem Ccring) qs us num v : (n <= 30)%N -> (forall k, uniform (us k)) ->
  m_state Ccring m mid = Some v -> normalised n v ->
  let ts := match qs with Some l => l | None => map Z.of_N (m_idx Ccring m mid) end in
  (ts = [] \/ (exists q, In q ts /\ (Z.of_N n <= q)%Z) -> sample_int n mid m qs us num = Err ValueError) /\
  (ts <> [] -> (forall q, In q ts -> (q < Z.of_N n)%Z) ->
    ((num <= 0)%Z -> sample_int n mid m qs us num = Ok []) /\
    ((0 < num)%Z -> (exists q, In q ts /\ (q < 0)%Z) -> sample_int n mid m qs us num = Err OverflowError) /\
    ((forall q, In q ts -> (0 <= q)%Z) ->
      exists oss, sample_int n mid m qs us num = Ok (map (map bit_nat) oss) /\ List.length oss = Z.to_nat num /\
        forall j os, nth_error oss j = Some os ->
          exists w, collapses n (map Z.to_N ts) (map us (seq (j * List.length ts) (List.length ts))) os v w)).
Proof.
  intros Hn Hu Hm Hv ts. pose proof (sample_int_cases n mid m qs us num v Hm) as E. cbv zeta in E. fold (listed mid m qs) in ts. fold ts in E.
  split.
  - intros H. rewrite E. destruct ts as [|t ts']; [reflexivity|]. destruct H as [H|(q & Hq & Hl)]; [discriminate|].
    replace (existsb _ (t :: ts')) with true; [reflexivity|]. symmetry. apply existsb_exists. exists q. split; [exact Hq|now apply Z.leb_le].
  - intros Hne Hlt.
    assert (E' : sample_int n mid m qs us num = many_int n ts us 0 (Z.to_nat num) v).
    { rewrite E. destruct ts as [|t ts'] eqn:Et; [congruence|].
      destruct (existsb (fun q => Z.leb (Z.of_N n) q) (t :: ts')) eqn:Ex; [|reflexivity].
      apply existsb_exists in Ex. destruct Ex as (q & Hq & Hl). apply Z.leb_le in Hl. specialize (Hlt q Hq). lia. }
    clear E. rewrite E'. clear E'. split; [|split].
    + intros H. destruct num; try reflexivity; lia.
    + intros H Hneg. destruct (first_negative ts Hneg) as (pre & q & post & Ets & Hq & Hpre).
      destruct (Z.to_nat num) as [|k] eqn:Ek; [lia|]. cbn [many_int].
      destruct (sample_once_spec n (map Z.to_N pre) us Hn) with (k := 0%nat) (v := v) as (os & w & Eo & _); auto.
      { intros x Hx. apply in_map_iff in Hx. destruct Hx as (z & <- & Hz). specialize (Hpre z Hz).
        assert (z < Z.of_N n)%Z by (apply Hlt; rewrite Ets; apply in_or_app; now left). lia. }
      rewrite Ets, (once_negative n us q post Hq pre Hpre 0 v _ _ Eo). reflexivity.
    + intros Hpos. rewrite many_same by exact Hpos.
      destruct (sample_many_spec n (map Z.to_N ts) us Hn) with (num := Z.to_nat num) (k := 0%nat) (v := v) as (oss & Eo & Hl & Hall); auto.
      { intros x Hx. apply in_map_iff in Hx. destruct Hx as (z & <- & Hz). specialize (Hpos z Hz). specialize (Hlt z Hz). lia. }
      exists oss. split; [exact Eo|]. split; [exact Hl|]. intros j os Hj. destruct (Hall j os Hj) as (w & Hw). exists w. rewrite map_length in Hw. exact Hw.
Qed.

Theorem sample_int_unmeasured n mid (m : mem Ccring) qs us num : m_state Ccring m mid = None ->
  sample_int n mid m qs us num = Err CircuitError /\ expval_int n mid m qs us num = Err CircuitError.
Proof. intros H. unfold expval_int, sample_int. now rewrite H. Qed.

Theorem expval_int_spec n mid (m : mem Ccring) qs us num :
  (forall e, sample_int n mid m qs us num = Err e -> expval_int n mid m qs us num = Err e) /\
  (sample_int n mid m qs us num = Ok [] -> expval_int n mid m qs us num = Err ValueError) /\
  ((forall q, In q (match qs with Some l => l | None => [] end) -> (0 <= q)%Z) ->
   expval_int n mid m qs us num =
   expval n mid m (match qs with Some l => QMany (map Z.to_N l) | None => QNone end) us (Z.to_nat num)).
Proof.
  unfold expval_int. split; [now intros e ->|]. split; [now intros ->|]. intros Hp.
  destruct (m_state Ccring m mid) as [v|] eqn:Hm.
  - rewrite (sample_int_cases n mid m qs us num v Hm). unfold expval.
    assert (G : forall ts, (forall q, In q ts -> (0 <= q)%Z) ->
      match ts with [] => Err ValueError | _ => if existsb (fun q => Z.leb (Z.of_N n) q) ts then Err ValueError else many_int n ts us 0 (Z.to_nat num) v end =
      match map Z.to_N ts with [] => Err ValueError | _ => if forallb (fun q => N.ltb q n) (map Z.to_N ts) then many n (map Z.to_N ts) us 0 (Z.to_nat num) v else Err ValueError end).
    { intros ts Hts. destruct ts as [|t ts]; [reflexivity|]. rewrite (many_same n us (t :: ts) Hts).
      replace (forallb (fun q => N.ltb q n) (map Z.to_N (t :: ts))) with (negb (existsb (fun q => Z.leb (Z.of_N n) q) (t :: ts))).
      - cbn [map]. destruct (existsb _ (t :: ts)); reflexivity.
      - clear -Hts. induction (t :: ts) as [|x l IH]; [reflexivity|]. cbn [existsb map forallb]. rewrite negb_orb, IH by (intros y Hy; apply Hts; now right). f_equal.
        specialize (Hts x (or_introl eq_refl)). destruct (Z.leb_spec (Z.of_N n) x), (N.ltb_spec (Z.to_N x) n); cbn; try reflexivity; lia. }
    destruct qs as [l|]; cbn [listed sample_list]; unfold sample_C, sample; rewrite Hm, G.
    + reflexivity.
    + exact Hp.
    + rewrite map_map. replace (map (fun x => Z.to_N (Z.of_N x)) (m_idx Ccring m mid)) with (m_idx Ccring m mid); [reflexivity|].
      rewrite <- (map_id (m_idx Ccring m mid)) at 1. apply map_ext. intros x. now rewrite N2Z.id.
    + intros q Hq. apply in_map_iff in Hq. destruct Hq as (x & <- & _). lia.
  - unfold sample_int, expval, sample_list, sample_C, sample. rewrite Hm. destruct qs; reflexivity.
Qed.

(** Samples: their distribution, expectation values and bit strings. *)
From Coq Require Import List NArith Arith Bool Lia Reals Lra String Ascii.
From Verif Require Import Py CRing Cplx KernelModel KernelSpec RegisterModel SimModel SimSpec SimReal SimProofs7 MeasureSpec
  SampleModel SampleSpec SampleProofs.
Import ListNotations.
Local Open Scope list_scope.
Local Open Scope R_scope.

Lemma bit_nat_inj a b : bit_nat a = bit_nat b -> a = b.
Proof. destruct a, b; cbn; congruence. Qed.
Lemma bits_inj l : forall m, map bit_nat l = map bit_nat m -> l = m.
Proof.
  induction l as [|a l IH]; intros [|b m] H; try discriminate; [reflexivity|]. injection H as Ha Hl.
  now rewrite (bit_nat_inj _ _ Ha), (IH _ Hl).
Qed.

Lemma volume_app a b : volume (a ++ b) = volume a * volume b.
Proof.
  unfold volume. induction a as [|x a IH]; cbn [app fold_right]; [ring|]. rewrite IH. ring.
Qed.

Lemma inside_app us vs a b : List.length us = List.length a -> (inside (us ++ vs) (a ++ b) <-> inside us a /\ inside vs b).
Proof.
  revert a. induction us as [|u us IH]; intros [|x a] Hl; try discriminate.
  - cbn. split; [intros H; split; [constructor|exact H]|tauto].
  - injection Hl as Hl. specialize (IH a Hl). unfold inside in *. cbn [app]. split.
    + intros H. inversion H; subst. apply IH in H5. split; [constructor; tauto|tauto].
    + intros [H1 H2]. inversion H1; subst. constructor; [assumption|]. apply IH. tauto.
Qed.

Lemma uniform_map (us : nat -> R) l : (forall k, uniform (us k)) -> Forall uniform (map us l).
Proof. intros H. apply Forall_forall. intros x Hx. apply in_map_iff in Hx. destruct Hx as (k & <- & _). apply H. Qed.

Notation many := (sample_many Ccring R Cgtb Cis0 Cinvsqrt).

Lemma many_box n ts v : (n <= 30)%N -> (forall q, In q ts -> (q < n)%N) -> normalised n v ->
  forall oss, (forall os, In os oss -> List.length os = List.length ts) ->
  exists b, List.length b = (List.length oss * List.length ts)%nat /\ in_unit b /\
    volume b = product (map (fun os => joint n ts os v) oss) /\
    forall us k, (forall k, uniform (us k)) ->
      (many n ts us k (List.length oss) v = Ok (map (map bit_nat) oss) <->
       inside (map us (seq k (List.length oss * List.length ts))) b).
Proof.
  intros Hn Ht Hv. induction oss as [|os oss IH]; intros Hl.
  - exists []. split; [reflexivity|]. split; [constructor|]. split; [reflexivity|].
    intros us k Hu. cbn. split; [constructor|reflexivity].
  - destruct (IH (fun x Hx => Hl x (or_intror Hx))) as (b & Lb & Ub & Vb & Hb).
    destruct (collapses_box n ts os v Hv (Hl os (or_introl eq_refl))) as (b0 & Lb0 & Ub0 & Vb0 & Hb0).
    exists (b0 ++ b). split; [rewrite app_length, Lb0, Lb; cbn [List.length]; lia|].
    split; [apply Forall_app; split; assumption|].
    split; [rewrite volume_app, Vb0, Vb; reflexivity|].
    intros us k Hu. specialize (Hb us (k + List.length ts)%nat Hu).
    specialize (Hb0 (map us (seq k (List.length ts))) (uniform_map _ _ Hu)).
    rewrite map_length, seq_length in Hb0. specialize (Hb0 eq_refl).
    cbn [List.length]. change (S (List.length oss) * List.length ts)%nat with (List.length ts + List.length oss * List.length ts)%nat.
    rewrite seq_app, map_app, inside_app by (rewrite map_length, seq_length; now rewrite Lb0).
    rewrite <- Hb0, <- Hb. cbn [sample_many].
    destruct (sample_once_spec n ts us Hn Ht Hu k v Hv) as (os' & w & E & Hc). rewrite E. cbn [bind].
    destruct (sample_many_spec n ts us Hn Ht Hu (List.length oss) (k + List.length ts)%nat v Hv) as (oss' & E' & _ & _).
    rewrite E'. cbn [bind]. split.
    + intros H. injection H as H1 H2. apply bits_inj in H1. subst os'. split; [now exists w|]. now rewrite H2.
    + intros [(w' & Hw') H]. injection H as H. destruct (collapses_fun _ _ _ _ _ _ Hc _ _ _ Hw') as [-> _]; [auto|].
      cbn [map]. now rewrite H.
Qed.

(** ** Samples *)
Lemma sample_many_of n mid m a us num v ts : m_state Ccring m mid = Some v -> chosen mid m a = Some ts ->
  ts <> [] -> (forall q, In q ts -> (q < n)%N) ->
  sample_list n mid m a us num = many n ts us 0 num v.
Proof.
  intros Hm Ha Hne Hl.
  assert (Ef : forallb (fun q => (q <? n)%N) ts = true) by (apply forallb_forall; intros q Hq; apply N.ltb_lt; auto).
  destruct a; cbn [chosen] in Ha; try discriminate; injection Ha as Ha; unfold sample_list, sample_C, sample; rewrite Hm, Ha;
    (destruct ts; [congruence|now rewrite Ef]).
Qed.

Theorem sample_box n mid m a v ts oss : (n <= 30)%N -> m_state Ccring m mid = Some v -> normalised n v ->
  chosen mid m a = Some ts -> ts <> [] -> (forall q, In q ts -> (q < n)%N) ->
  (forall os, In os oss -> List.length os = List.length ts) ->
  exists b, List.length b = (List.length oss * List.length ts)%nat /\ in_unit b /\
    volume b = product (map (fun os => joint n ts os v) oss) /\
    forall us, (forall k, uniform (us k)) ->
      (sample_list n mid m a us (List.length oss) = Ok (map (map bit_nat) oss) <->
       inside (map us (seq 0 (List.length oss * List.length ts))) b).
Proof.
  intros Hn Hm Hv Ha Hne Hl Ho. destruct (many_box n ts v Hn Hl Hv oss Ho) as (b & H1 & H2 & H3 & H4).
  exists b. repeat (split; [assumption|]). intros us Hu. rewrite (sample_many_of n mid m a us _ v ts Hm Ha Hne Hl). now apply H4.
Qed.

(** Every sample is possible, and a qubit listed twice shows the same outcome twice. *)
Lemma joint_shows n ts os v : 0 < joint n ts os v -> exists i, (i < 2 ^ n)%N /\ shows n i ts os = true /\ v i <> C0.
Proof.
  intros H. unfold joint in H.
  destruct (filter (fun i => shows n i ts os) (Nrange (2 ^ n))) as [|i0 l0] eqn:E0; [cbn in H; lra|].
  rewrite <- E0 in H.
  assert (Hex : exists i, In i (filter (fun i => shows n i ts os) (Nrange (2 ^ n))) /\ Cnorm2 (v i) <> 0).
  { clear E0 i0 l0. revert H. generalize (filter (fun i => shows n i ts os) (Nrange (2 ^ n))) as l.
    induction l as [|i l IH]; intros H; [cbn in H; lra|].
    destruct (Req_EM_T (Cnorm2 (v i)) 0) as [E|E]; [|exists i; split; [now left|exact E]].
    change (0 < Cnorm2 (v i) + Rsum l (fun i => Cnorm2 (v i))) in H.
    destruct IH as (j & Hj & Hn); [lra|]. exists j. split; [now right|exact Hn]. }
  destruct Hex as (i & Hi & Hc). apply filter_In in Hi. destruct Hi as [Hi Hs].
  exists i. split; [now apply in_Nrange|]. split; [exact Hs|]. intros E. apply Hc. rewrite E. unfold Cnorm2, C0. cbn. ring.
Qed.

Lemma shows_nth n i ts : forall os, shows n i ts os = true ->
  List.length os = List.length ts /\
  forall k t, nth_error ts k = Some t -> nth_error os k = Some (qbit false n i t).
Proof.
  induction ts as [|t ts IH]; intros [|o os] H; try discriminate.
  - split; [reflexivity|]. intros [|k] x Hx; discriminate.
  - cbn [shows] in H. apply andb_prop in H. destruct H as [H1 H2]. apply eqb_prop in H1. destruct (IH os H2) as [Hl Hn].
    split; [cbn; lia|]. intros [|k] x Hx; cbn in *; [injection Hx as <-; now rewrite H1|now apply Hn].
Qed.

Theorem sample_possible n mid m a us num v ts : (n <= 30)%N -> (forall k, uniform (us k)) ->
  m_state Ccring m mid = Some v -> normalised n v ->
  chosen mid m a = Some ts -> ts <> [] -> (forall q, In q ts -> (q < n)%N) ->
  exists oss, sample_list n mid m a us num = Ok (map (map bit_nat) oss) /\ List.length oss = num /\
    forall os, In os oss -> exists i, (i < 2 ^ n)%N /\ v i <> C0 /\ os = map (qbit false n i) ts.
Proof.
  intros Hn Hu Hm Hv Ha Hne Hl. rewrite (sample_many_of n mid m a us _ v ts Hm Ha Hne Hl).
  destruct (sample_many_spec n ts us Hn Hl Hu num 0%nat v Hv) as (oss & E & Hlen & Hall).
  exists oss. split; [exact E|]. split; [exact Hlen|]. intros os Hos. apply In_nth_error in Hos. destruct Hos as (j & Hj).
  destruct (Hall j os Hj) as (w & Hc). destruct (collapses_joint _ _ _ _ _ _ Hc Hv) as [Hp _].
  destruct (joint_shows _ _ _ _ Hp) as (i & Hi & Hs & Hne'). exists i. split; [exact Hi|]. split; [exact Hne'|].
  destruct (shows_nth _ _ _ _ Hs) as [Hlo Hk].
  apply nth_ext with (d := false) (d' := false); [now rewrite map_length|]. intros k Hlt. rewrite Hlo in Hlt.
  destruct (nth_error ts k) as [t|] eqn:Et; [|apply nth_error_None in Et; lia].
  rewrite (nth_error_nth os k false (Hk k t Et)).
  symmetry. apply nth_error_nth. now rewrite nth_error_map, Et.
Qed.

(** ** Marginals *)
Lemma outcomes_length k : forall os, In os (outcomes k) <-> List.length os = k.
Proof.
  induction k as [|k IH]; intros os; cbn [outcomes].
  - split; [intros [<-|[]]; reflexivity|]. destruct os; [now left|discriminate].
  - rewrite in_app_iff, !in_map_iff. split.
    + intros [(x & <- & H)|(x & <- & H)]; apply IH in H; cbn; lia.
    + destruct os as [|[|] os]; [discriminate| |]; intros H; injection H as H; [right|left]; exists os; split; auto; now apply IH.
Qed.
Lemma Rsum_apps {I} (l m : list I) f : Rsum (l ++ m) f = Rsum l f + Rsum m f.
Proof. induction l as [|i l IH]; [cbn; unfold Rsum; ring|]. unfold Rsum in *. cbn [app fold_right]. rewrite IH. ring. Qed.
Lemma Rsum_map {I J} (g : I -> J) (l : list I) f : Rsum (map g l) f = Rsum l (fun i => f (g i)).
Proof. induction l as [|i l IH]; [reflexivity|]. unfold Rsum in *. cbn [map fold_right]. now rewrite IH. Qed.

(** For one basis state exactly one list of outcomes is shown. *)
Lemma shown_once n i x ts : forall (p : list bool -> bool),
  Rsum (outcomes (List.length ts)) (fun os => if (p os && shows n i ts os)%bool then x else 0) =
  if p (map (qbit false n i) ts) then x else 0.
Proof.
  induction ts as [|t ts IH]; intros p.
  - cbn. rewrite andb_true_r. destruct (p []); ring.
  - cbn [List.length outcomes]. rewrite Rsum_apps, !Rsum_map. cbn [shows map].
    rewrite <- (IH (fun os => p (qbit false n i t :: os))).
    destruct (qbit false n i t); cbn [Bool.eqb].
    + rewrite (Rsum_ext _ _ (fun _ => 0 * 0)) by (intros os _; cbn [andb]; rewrite andb_false_r; ring).
      rewrite Rsum_scale. cbn [andb]. ring.
    + rewrite (Rsum_ext (outcomes _) (fun os => if (p (true :: os) && _)%bool then x else 0) (fun _ => 0 * 0))
        by (intros os _; cbn [andb]; rewrite andb_false_r; ring).
      rewrite Rsum_scale. cbn [andb]. ring.
Qed.

Theorem joint_sum n ts v (p : list bool -> bool) :
  Rsum (outcomes (List.length ts)) (fun os => if p os then joint n ts os v else 0) =
  Rsum (Nrange (2 ^ n)) (fun i => if p (map (qbit false n i) ts) then Cnorm2 (v i) else 0).
Proof.
  rewrite (Rsum_ext _ _ (fun os => Rsum (Nrange (2 ^ n)) (fun i => if (p os && shows n i ts os)%bool then Cnorm2 (v i) else 0))).
  - rewrite Rsum_swap. apply Rsum_ext. intros i _. apply shown_once.
  - intros os _. rewrite joint_if. destruct (p os); [reflexivity|].
    rewrite (Rsum_ext _ _ (fun _ => 0 * 0)) by (intros; cbn; ring). rewrite Rsum_scale. ring.
Qed.

Theorem joint_total n ts v : normalised n v -> Rsum (outcomes (List.length ts)) (fun os => joint n ts os v) = 1.
Proof.
  intros H. etransitivity; [exact (joint_sum n ts v (fun _ => true))|exact H].
Qed.

Theorem joint_marginal n ts v k t : nth_error ts k = Some t ->
  Rsum (outcomes (List.length ts)) (fun os => if nth k os false then joint n ts os v else 0) = prob false n t true v.
Proof.
  intros H. rewrite (joint_sum n ts v (fun os => nth k os false)), prob_if. apply Rsum_ext. intros i _.
  assert (E : nth k (map (qbit false n i) ts) false = qbit false n i t).
  { apply nth_error_nth. now rewrite nth_error_map, H. }
  rewrite E. now destruct (qbit false n i t).
Qed.

(** ** Expectation values and bit strings *)
Lemma total_ones k oss : (forall os, In os oss -> (k < List.length os)%nat) ->
  total (map (fun r => nth k r 0%nat) (map (map bit_nat) oss)) = ones k oss.
Proof.
  induction oss as [|os oss IH]; intros H; [reflexivity|]. cbn [map]. unfold total. cbn [fold_right]. fold total.
  unfold total in IH. rewrite IH by (intros; apply H; now right). unfold ones. cbn [filter].
  assert (E : nth k (map bit_nat os) 0%nat = bit_nat (nth k os false)) by (change 0%nat with (bit_nat false); apply map_nth).
  rewrite E. destruct (nth k os false); cbn; reflexivity.
Qed.

Lemma expval_of oss len : oss <> [] -> (forall os, In os oss -> List.length os = len) ->
  map mean (transpose (map (map bit_nat) oss)) =
  map (fun k => INR (ones k oss) / INR (List.length oss)) (seq 0 len).
Proof.
  intros Hne Hl. destruct oss as [|os oss]; [congruence|]. cbn [transpose map].
  rewrite map_length, (Hl os) by now left. rewrite map_map. apply map_ext_in. intros k Hk. apply in_seq in Hk.
  unfold mean. cbn [List.length]. rewrite !map_length.
  change (nth k (map bit_nat os) 0%nat :: map (fun r => nth k r 0%nat) (map (map bit_nat) oss))
    with (map (fun r => nth k r 0%nat) (map (map bit_nat) (os :: oss))).
  rewrite total_ones; [reflexivity|]. intros x Hx. rewrite (Hl x Hx). lia.
Qed.

Lemma bitstring_digits os : bitstring (map bit_nat os) = digits os.
Proof.
  unfold bitstring, digits. rewrite map_map.
  assert (C : forall a l, String.concat EmptyString (a :: l) = (a ++ String.concat EmptyString l)%string).
  { intros a [|b l]; [|reflexivity]. cbn [String.concat]. induction a as [|c a IH]; cbn; congruence. }
  induction os as [|o os IH]; [reflexivity|]. cbn [map]. rewrite C, IH. destruct o; reflexivity.
Qed.

Theorem expval_spec n mid m a us num v ts : (n <= 30)%N -> (forall k, uniform (us k)) ->
  m_state Ccring m mid = Some v -> normalised n v ->
  chosen mid m a = Some ts -> ts <> [] -> (forall q, In q ts -> (q < n)%N) -> (0 < num)%nat ->
  exists oss, sample_list n mid m a us num = Ok (map (map bit_nat) oss) /\ List.length oss = num /\
    expval n mid m a us num = Ok (map (fun k => INR (ones k oss) / INR num) (seq 0 (List.length ts))) /\
    sample_bitstrings n mid m a us num = Ok (map digits oss).
Proof.
  intros Hn Hu Hm Hv Ha Hne Hl Hnum.
  destruct (sample_possible n mid m a us num v ts Hn Hu Hm Hv Ha Hne Hl) as (oss & E & Hlen & Hall).
  exists oss. split; [exact E|]. split; [exact Hlen|].
  assert (Hlo : forall os, In os oss -> List.length os = List.length ts).
  { intros os Hos. destruct (Hall os Hos) as (i & _ & _ & ->). apply map_length. }
  assert (Hoss : oss <> []) by (destruct oss; [cbn in Hlen; lia|discriminate]).
  unfold expval, sample_bitstrings. rewrite E. cbn [bind]. split.
  - destruct (map (map bit_nat) oss) eqn:Em; [destruct oss; [congruence|discriminate]|]. rewrite <- Em.
    rewrite (expval_of oss _ Hoss Hlo). now rewrite Hlen.
  - f_equal. rewrite map_map. apply map_ext. apply bitstring_digits.
Qed.

Lemma ones_le k oss : (ones k oss <= List.length oss)%nat.
Proof. unfold ones. induction oss as [|os oss IH]; cbn [filter List.length]; [lia|]. destruct (nth k os false); cbn [List.length]; lia. Qed.

Lemma all_ones k oss : (forall os, In os oss -> nth k os false = true) -> ones k oss = List.length oss.
Proof.
  unfold ones. induction oss as [|os oss IH]; intros H; [reflexivity|]. cbn [filter]. rewrite (H os) by now left.
  cbn [List.length]. rewrite IH; [reflexivity|]. intros; apply H; now right.
Qed.

(** A qubit that is certain has that expectation value. *)
Theorem expval_range n mid m a us num v ts : (n <= 30)%N -> (forall k, uniform (us k)) ->
  m_state Ccring m mid = Some v -> normalised n v ->
  chosen mid m a = Some ts -> ts <> [] -> (forall q, In q ts -> (q < n)%N) -> (0 < num)%nat ->
  exists es, expval n mid m a us num = Ok es /\ List.length es = List.length ts /\
    forall k t e, nth_error ts k = Some t -> nth_error es k = Some e ->
      0 <= e <= 1 /\ (prob false n t true v = 0 -> e = 0) /\ (prob false n t true v = 1 -> e = 1).
Proof.
  intros Hn Hu Hm Hv Ha Hne Hl Hnum.
  destruct (expval_spec n mid m a us num v ts Hn Hu Hm Hv Ha Hne Hl Hnum) as (oss & E & Hlen & Ee & _).
  eexists. split; [exact Ee|]. split; [now rewrite map_length, seq_length|].
  intros k t e Ht He.
  assert (Hk : (k < List.length ts)%nat) by (apply nth_error_Some; congruence).
  rewrite nth_error_map in He. rewrite (nth_error_nth' _ 0%nat) in He by (now rewrite seq_length).
  rewrite seq_nth in He by exact Hk. injection He as <-. cbn [Nat.add].
  assert (Hpos : 0 < INR num) by (apply lt_0_INR; lia).
  pose proof (pos_INR (ones k oss)). pose proof (le_INR _ _ (ones_le k oss)) as Hle. rewrite Hlen in Hle.
  assert (Hall : forall os, In os oss -> forall o, nth k os false = o -> prob false n t o v <> 0).
  { destruct (sample_possible n mid m a us num v ts Hn Hu Hm Hv Ha Hne Hl) as (oss' & E' & _ & Hall).
    rewrite E in E'. injection E' as E'.
    assert (oss = oss') as <-.
    { clear -E'. revert oss' E'. induction oss as [|x l IH]; intros [|y m'] E'; try discriminate; [reflexivity|].
      injection E' as H1 H2. f_equal; [now apply bits_inj|now apply IH]. }
    intros os Hos o Ho Hz. destruct (Hall os Hos) as (i & Hi & Hvi & ->).
    rewrite (nth_error_nth _ k false (x := qbit false n i t)) in Ho by (now rewrite nth_error_map, Ht).
    apply Hvi. apply Cnorm2_zero. unfold prob in Hz.
    refine (Rsum_zero _ _ _ Hz i _); [intros; apply Cnorm2_pos|].
    apply filter_In. split; [|now rewrite Ho, eqb_reflx].
    unfold Nrange. apply in_map_iff. exists (N.to_nat i). split; [apply N2Nat.id|]. apply in_seq. lia. }
  split; [|split].
  - split; [apply Rmult_le_pos; [lra|]; apply Rlt_le, Rinv_0_lt_compat; lra|].
    apply (Rmult_le_reg_r (INR num)); [lra|]. unfold Rdiv. rewrite Rmult_assoc, Rinv_l; lra.
  - intros Hp. assert (Ez : ones k oss = 0%nat).
    { unfold ones. destruct (filter (fun os => nth k os false) oss) as [|os l] eqn:Ef; [reflexivity|].
      assert (Hin : In os (filter (fun os => nth k os false) oss)) by (rewrite Ef; now left).
      apply filter_In in Hin. destruct Hin as [H1 H2]. destruct (Hall os H1 true H2 Hp). }
    rewrite Ez. cbn. lra.
  - intros Hp. pose proof (prob_sum n t v Hv) as Hs.
    assert (Ez : ones k oss = num).
    { rewrite <- Hlen. apply all_ones. intros os Hos.
      destruct (nth k os false) eqn:Eo; [reflexivity|]. exfalso. apply (Hall os Hos false Eo). lra. }
    rewrite Ez. field. lra.
Qed.

(** Errors *)
Theorem sample_errors n mid m a us num :
  (m_state Ccring m mid = None -> sample_list n mid m a us num = Err CircuitError) /\
  (forall v, m_state Ccring m mid = Some v ->
    (chosen mid m a = None -> sample_list n mid m a us num = Err TypeError) /\
    (forall ts, chosen mid m a = Some ts -> ts = [] \/ (exists q, In q ts /\ (n <= q)%N) ->
       sample_list n mid m a us num = Err ValueError)) /\
  (forall e, sample_list n mid m a us num = Err e ->
     expval n mid m a us num = Err e /\ sample_bitstrings n mid m a us num = Err e) /\
  (forall ss, sample_list n mid m a us 0 = Ok ss -> expval n mid m a us 0 = Err ValueError).
Proof.
  split; [|split; [|split]].
  - intros H. destruct a; unfold sample_list, sample_C, sample; now rewrite H.
  - intros v H. split.
    + intros Ha. destruct a; try discriminate. unfold sample_list. now rewrite H.
    + intros ts Ha Hb. assert (E : sample_list n mid m a us num = match ts with [] => Err ValueError
         | _ => if forallb (fun q => (q <? n)%N) ts then many n ts us 0 num v else Err ValueError end).
      { destruct a; cbn [chosen] in Ha; try discriminate; injection Ha as Ha; unfold sample_list, sample_C, sample;
          rewrite H, Ha; reflexivity. }
      rewrite E. destruct ts as [|t ts']; [reflexivity|]. destruct Hb as [Hb|(q & Hq & Hge)]; [discriminate|].
      destruct (forallb (fun q => (q <? n)%N) (t :: ts')) eqn:Ef; [|reflexivity].
      rewrite forallb_forall in Ef. specialize (Ef q Hq). apply N.ltb_lt in Ef. lia.
  - intros e H. unfold expval, sample_bitstrings. now rewrite H.
  - intros ss H. unfold expval. rewrite H. cbn [bind].
    assert (ss = []) as ->; [|reflexivity].
    destruct a; unfold sample_list, sample_C, sample in H; destruct (m_state Ccring m mid) as [v|]; try discriminate.
    + destruct (m_idx Ccring m mid); [discriminate|]. destruct (forallb _ _); [|discriminate]. cbn in H. now injection H as <-.
    + destruct qs; [discriminate|]. destruct (forallb _ _); [|discriminate]. cbn in H. now injection H as <-.
Qed.

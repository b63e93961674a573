From Coq Require Import List ZArith String Bool Arith Lia FinFun.
From Verif Require Import Py RegisterModel RegisterSpec.
Import ListNotations.
Local Open Scope Z_scope.

Lemma item_eqb_spec a b : reflect (a = b) (item_eqb a b).
Proof. unfold item_eqb. destruct (item_eq_dec a b); constructor; auto. Qed.

Lemma item_eqb_refl a : item_eqb a a = true.
Proof. destruct (item_eqb_spec a a); congruence. Qed.

Lemma item_eqb_neq a b : a <> b -> item_eqb a b = false.
Proof. destruct (item_eqb_spec a b); congruence. Qed.

Lemma inb_In v l : inb v l = true <-> In v l.
Proof.
  unfold inb. rewrite existsb_exists. split.
  - intros (x & Hx & E). destruct (item_eqb_spec v x); congruence.
  - intros H. exists v. rewrite item_eqb_refl. auto.
Qed.

Lemma inb_false v l : inb v l = false <-> ~ In v l.
Proof. rewrite <- inb_In. destruct (inb v l); intuition congruence. Qed.

(** [r] represents the list [l]. *)
Record rep (r : cyreg) (l : list item) : Prop := {
  rep_stop : stop r = List.length l;
  rep_nodup : NoDup l;
  rep_i2l : forall i v, nth_error l i = Some v ->
      get (IInt (zn i)) (i2l r) = if item_eqb v (IInt (zn i)) then None else Some v;
  rep_i2l_out : forall k w, get k (i2l r) = Some w ->
      exists i, k = IInt (zn i) /\ (i < List.length l)%nat;
  rep_l2i : forall v w, get v (l2i r) = Some w <->
      exists i, nth_error l i = Some v /\ w = IInt (zn i) /\ v <> IInt (zn i);
  rep_i2l_nd : NoDup (map fst (i2l r));
  rep_l2i_nd : NoDup (map fst (l2i r));
  rep_hash : forall v, In v l -> hashable v = true
}.

Lemma nth_unique {A} (l : list A) i j v :
  NoDup l -> nth_error l i = Some v -> nth_error l j = Some v -> i = j.
Proof.
  intros H Hi Hj. rewrite NoDup_nth_error in H. apply H; [|congruence].
  apply nth_error_Some. congruence.
Qed.

Lemma nth_lt {A} (l : list A) i v : nth_error l i = Some v -> (i < List.length l)%nat.
Proof. intros H. apply nth_error_Some. congruence. Qed.

Lemma lt_nth {A} (l : list A) i : (i < List.length l)%nat -> exists v, nth_error l i = Some v.
Proof. intros H. apply nth_error_Some in H. destruct (nth_error l i); [eauto|congruence]. Qed.

Ltac zi := repeat match goal with
  | H : IInt _ = IInt _ |- _ => injection H as H
  end.

Lemma mem_l2i r l v : rep r l -> mem v (l2i r) = true <->
  exists i, nth_error l i = Some v /\ v <> IInt (zn i).
Proof.
  intros R. unfold dmem. destruct (get v (l2i r)) as [w|] eqn:E.
  - apply (rep_l2i _ _ R) in E. destruct E as (i & H1 & _ & H3). split; eauto.
  - split; [discriminate|]. intros (i & H1 & H2). exfalso.
    assert (get v (l2i r) = Some (IInt (zn i))) by (apply (rep_l2i _ _ R); eauto). congruence.
Qed.

Lemma is_range_spec r l : rep r l ->
  is_range r = true <-> forall i v, nth_error l i = Some v -> v = IInt (zn i).
Proof.
  intros R. unfold is_range. destruct (l2i r) as [|[k w] d] eqn:E.
  - split; [intros _|auto]. intros i v Hv.
    destruct (item_eq_dec v (IInt (zn i))) as [|n]; [auto|].
    assert (H : get v (l2i r) = Some (IInt (zn i))) by (apply (rep_l2i _ _ R); eauto).
    rewrite E in H. discriminate.
  - split; [discriminate|]. intros H. exfalso.
    assert (Hg : get k (l2i r) = Some w).
    { rewrite E. simpl. rewrite item_eqb_refl. reflexivity. }
    apply (rep_l2i _ _ R) in Hg. destruct Hg as (i & H1 & _ & H3). apply H3. eauto.
Qed.

Lemma count_int_spec r l z : rep r l -> count_int r z = inb (IInt z) l.
Proof.
  intros R.
  assert (Hgen : ((0 <=? z) && (z <? zn (stop r)) && negb (mem (IInt z) (i2l r)))
                 || mem (IInt z) (l2i r) = inb (IInt z) l).
  { apply eq_true_iff_eq. rewrite orb_true_iff, !andb_true_iff, negb_true_iff.
    rewrite (mem_l2i r l _ R), inb_In, (rep_stop _ _ R). split.
    - intros [[[H1 H2] H3]|(i & Hi & _)].
      + apply Z.leb_le in H1. apply Z.ltb_lt in H2.
        assert (Hl : (Z.to_nat z < List.length l)%nat) by lia.
        destruct (lt_nth l _ Hl) as (v & Hv). pose proof (rep_i2l _ _ R _ _ Hv) as Hg.
        rewrite Z2Nat.id in Hg by lia. unfold dmem in H3.
        destruct (item_eqb_spec v (IInt z)) as [->|n].
        * eapply nth_error_In; eauto.
        * rewrite Hg in H3. discriminate.
      + eapply nth_error_In; eauto.
    - intros Hin. apply In_nth_error in Hin. destruct Hin as (i & Hi).
      destruct (Z.eq_dec z (zn i)) as [->|n].
      + left. pose proof (nth_lt _ _ _ Hi). repeat split.
        * apply Z.leb_le. lia.
        * apply Z.ltb_lt. lia.
        * unfold dmem. rewrite (rep_i2l _ _ R _ _ Hi), item_eqb_refl. reflexivity.
      + right. exists i. split; [auto|]. congruence. }
  unfold count_int. destruct (is_range r) eqn:E; [|exact Hgen].
  rewrite <- Hgen. unfold is_range in E. destruct (l2i r) eqn:El; [|discriminate].
  assert (Hm : mem (IInt z) (i2l r) = false).
  { unfold dmem. destruct (get (IInt z) (i2l r)) as [w|] eqn:Eg; [|reflexivity]. exfalso.
    destruct (rep_i2l_out _ _ R _ _ Eg) as (i & Hk & Hi).
    destruct (lt_nth l _ Hi) as (v & Hv). pose proof (rep_i2l _ _ R _ _ Hv) as Hg.
    rewrite <- Hk, Eg in Hg. destruct (item_eqb_spec v (IInt z)) as [->|n]; [discriminate|].
    assert (H : get v (l2i r) = Some (IInt (zn i))).
    { apply (rep_l2i _ _ R). exists i. rewrite <- Hk. auto. }
    rewrite El in H. discriminate. }
  rewrite Hm. simpl. now rewrite andb_true_r, orb_false_r.
Qed.

Lemma mem_l2i_nonint r l v : rep r l -> (forall z, v <> IInt z) -> mem v (l2i r) = inb v l.
Proof.
  intros R Hv. apply eq_true_iff_eq. rewrite (mem_l2i r l v R), inb_In. split.
  - intros (i & Hi & _). eapply nth_error_In; eauto.
  - intros H. apply In_nth_error in H. destruct H as (i & Hi). eauto.
Qed.

Lemma unhashable_not_in r l k : rep r l -> inb (IUnhashable k) l = false.
Proof.
  intros R. apply inb_false. intros H.
  pose proof (rep_hash _ _ R _ H). discriminate.
Qed.

Lemma count_spec r l v : rep r l -> count r v = spec_contains l v.
Proof.
  intros R. unfold count, spec_contains, ask_exn.
  destruct v; try (rewrite (mem_l2i_nonint r l) by (auto; discriminate); reflexivity).
  - rewrite (count_int_spec r l) by auto. destruct (ssize_ok z); reflexivity.
  - reflexivity.
  - now rewrite (unhashable_not_in r l).
Qed.

Lemma get_i2l r l i v : rep r l -> nth_error l i = Some v ->
  match get (IInt (zn i)) (i2l r) with Some w => w | None => IInt (zn i) end = v.
Proof.
  intros R H. rewrite (rep_i2l _ _ R _ _ H). destruct (item_eqb_spec v (IInt (zn i))); auto.
Qed.

Lemma at_spec r l i : rep r l -> at_ r i = spec_nth l i.
Proof.
  intros R. unfold at_, spec_nth.
  rewrite (rep_stop _ _ R). set (j := if i <? 0 then zn (List.length l) + i else i).
  clearbody j. destruct (Z.leb_spec 0 j) as [Hj|Hj]; simpl; [|reflexivity].
  destruct (Z.ltb_spec j (zn (List.length l))) as [Hl|Hl].
  - destruct (lt_nth l (Z.to_nat j)) as (v & Hv); [lia|]. rewrite Hv.
    assert (Hz : zn (Z.to_nat j) = j) by lia.
    destruct (is_range r) eqn:E.
    + rewrite (is_range_spec r l R) in E. rewrite (E _ _ Hv), Hz. reflexivity.
    + pose proof (get_i2l r l _ _ R Hv) as G. rewrite Hz in G.
      destruct (get (IInt j) (i2l r)); congruence.
  - destruct (nth_error l (Z.to_nat j)) eqn:E; [|reflexivity].
    apply nth_lt in E. lia.
Qed.

Lemma getitem_spec r l i : rep r l -> getitem r i = spec_at l i.
Proof. intros R. unfold getitem, spec_at. now rewrite (at_spec r l). Qed.

Lemma spec_nth_nat l i : spec_nth l (zn i) =
  match nth_error l i with Some v => Ok v | None => Err IndexError end.
Proof.
  unfold spec_nth. destruct (Z.ltb_spec (zn i) 0); [lia|].
  destruct (Z.leb_spec 0 (zn i)); [|lia]. now rewrite Nat2Z.id.
Qed.

Lemma mapM_ok {A B} (f : A -> res B) (g : A -> B) l :
  (forall x, In x l -> f x = Ok (g x)) -> mapM f l = Ok (map g l).
Proof.
  induction l as [|x l IH]; intros H; simpl; [reflexivity|].
  rewrite H by now left. simpl. rewrite IH by (intros; apply H; now right). reflexivity.
Qed.

Lemma map_nth_seq {A} (l : list A) (d : A) : map (fun i => nth i l d) (seq 0 (List.length l)) = l.
Proof.
  induction l as [|x l IH]; simpl; [reflexivity|]. f_equal.
  rewrite <- seq_shift, map_map. exact IH.
Qed.

Lemma items_spec r l : rep r l -> items r = Ok l.
Proof.
  intros R. unfold items. rewrite (rep_stop _ _ R). destruct (is_range r) eqn:E.
  - rewrite (is_range_spec r l R) in E. f_equal.
    rewrite <- (map_nth_seq l INone) at 2. apply map_ext_in. intros i Hi. apply in_seq in Hi.
    destruct (lt_nth l i) as (v & Hv); [lia|]. rewrite (E _ _ Hv) in Hv.
    symmetry. apply nth_error_nth with (d := INone) in Hv. exact Hv.
  - rewrite (mapM_ok _ (fun i => nth i l INone)).
    + now rewrite map_nth_seq.
    + intros i Hi. apply in_seq in Hi. rewrite (at_spec r l) by auto. rewrite spec_nth_nat.
      destruct (lt_nth l i) as (v & Hv); [lia|]. rewrite Hv.
      apply nth_error_nth with (d := INone) in Hv. congruence.
Qed.

(** ** Growing *)
Lemma rep_empty : rep empty_reg [].
Proof.
  constructor; simpl; try constructor.
  - intros [|i] v; discriminate.
  - discriminate.
  - discriminate.
  - intros (i & H & _). destruct i; discriminate.
  - tauto.
Qed.

Lemma nth_app_last {A} (l : list A) v i w :
  nth_error (l ++ [v]) i = Some w <->
  nth_error l i = Some w \/ (i = List.length l /\ w = v).
Proof.
  destruct (lt_dec i (List.length l)) as [H|H].
  - rewrite nth_error_app1 by auto. split; [auto|]. intros [E|[E _]]; [auto|lia].
  - assert (Hn : nth_error l i = None) by (apply nth_error_None; lia). rewrite Hn.
    rewrite nth_error_app2 by lia.
    destruct (i - List.length l)%nat as [|k] eqn:E; simpl.
    + split; [intros [= <-]; right; split; [lia|auto]|intros [?|[_ ->]]; congruence].
    + split; [destruct k; discriminate|]. intros [?|[? _]]; [congruence|lia].
Qed.

Lemma NoDup_snoc {A} (l : list A) v : NoDup l -> ~ In v l -> NoDup (l ++ [v]).
Proof.
  intros H Hv. apply NoDup_rev in H. rewrite <- (rev_involutive (l ++ [v])).
  apply NoDup_rev. rewrite rev_app_distr. simpl. constructor; [|auto].
  now rewrite <- in_rev.
Qed.

Lemma rep_push_same r l :
  rep r l -> ~ In (IInt (zn (List.length l))) l ->
  rep (mkReg (i2l r) (l2i r) (S (stop r))) (l ++ [IInt (zn (List.length l))]).
Proof.
  intros R Hv. set (n := List.length l) in *. constructor; simpl.
  - rewrite app_length, (rep_stop _ _ R). simpl. lia.
  - apply NoDup_snoc; [apply (rep_nodup _ _ R)|auto].
  - intros i v H. apply nth_app_last in H. destruct H as [H|[-> ->]].
    + apply (rep_i2l _ _ R _ _ H).
    + fold n. rewrite item_eqb_refl.
      destruct (get (IInt (zn n)) (i2l r)) as [w|] eqn:E; [|reflexivity]. exfalso.
      destruct (rep_i2l_out _ _ R _ _ E) as (i & Hk & Hi). zi. unfold n in Hk. lia.
  - intros k w H. destruct (rep_i2l_out _ _ R _ _ H) as (i & Hk & Hi).
    exists i. split; [auto|]. rewrite app_length. simpl. lia.
  - intros v w. rewrite (rep_l2i _ _ R). split; intros (i & H1 & H2 & H3); exists i.
    + split; [apply nth_app_last; auto|auto].
    + apply nth_app_last in H1. destruct H1 as [H1|[-> ->]]; [auto|]. fold n in H3. congruence.
  - apply (rep_i2l_nd _ _ R).
  - apply (rep_l2i_nd _ _ R).
  - intros v H. apply in_app_or in H. destruct H as [H|[<-|[]]]; [|reflexivity].
    apply (rep_hash _ _ R _ H).
Qed.

Lemma rep_push_other r l v :
  rep r l -> ~ In v l -> v <> IInt (zn (List.length l)) -> hashable v = true ->
  rep (mkReg (set (IInt (zn (stop r))) v (i2l r)) (set v (IInt (zn (stop r))) (l2i r)) (S (stop r)))
      (l ++ [v]).
Proof.
  intros R Hv Hn Hh. rewrite (rep_stop _ _ R). set (n := List.length l) in *. constructor; simpl.
  - rewrite app_length. simpl. fold n. lia.
  - apply NoDup_snoc; [apply (rep_nodup _ _ R)|auto].
  - intros i w H. apply nth_app_last in H. destruct H as [H|[-> ->]].
    + rewrite dget_dset_other; [apply (rep_i2l _ _ R _ _ H)|apply item_eqb_spec|].
      pose proof (nth_lt _ _ _ H). intros E. zi. unfold n in E. lia.
    + fold n. rewrite dget_dset_same by apply item_eqb_spec.
      rewrite item_eqb_neq by auto. reflexivity.
  - intros k w H. rewrite app_length. simpl. fold n.
    destruct (item_eq_dec (IInt (zn n)) k) as [<-|Hk].
    + exists n. split; [auto|lia].
    + rewrite dget_dset_other in H by (auto using item_eqb_spec).
      destruct (rep_i2l_out _ _ R _ _ H) as (i & E & Hi). exists i. split; [auto|]. unfold n. lia.
  - intros u w. destruct (item_eq_dec v u) as [<-|Hu].
    + rewrite dget_dset_same by apply item_eqb_spec. split.
      * intros [= <-]. exists n. split; [apply nth_app_last; auto|auto].
      * intros (i & H1 & -> & H3). apply nth_app_last in H1. destruct H1 as [H1|[-> _]].
        -- exfalso. apply Hv. eapply nth_error_In; eauto.
        -- reflexivity.
    + rewrite dget_dset_other by (auto using item_eqb_spec). rewrite (rep_l2i _ _ R).
      split; intros (i & H1 & H2 & H3); exists i.
      * split; [apply nth_app_last; auto|auto].
      * apply nth_app_last in H1. destruct H1 as [H1|[-> ->]]; [auto|congruence].
  - apply NoDup_dset; [apply item_eqb_spec|]. apply (rep_i2l_nd _ _ R).
  - apply NoDup_dset; [apply item_eqb_spec|]. apply (rep_l2i_nd _ _ R).
  - intros u H. apply in_app_or in H. destruct H as [H|[<-|[]]]; [|auto].
    apply (rep_hash _ _ R _ H).
Qed.

(** ** Pigeonhole: among [length l + 1] integers one is not in [l] *)
Lemma seq_ints_nodup a n : NoDup (map (fun k => IInt (zn k)) (seq a n)).
Proof.
  apply FinFun.Injective_map_NoDup; [|apply seq_NoDup]. intros x y E. zi. lia.
Qed.

Lemma free_below l a n :
  (List.length l < n)%nat -> exists k, (a <= k < a + n)%nat /\ ~ In (IInt (zn k)) l.
Proof.
  intros Hn.
  destruct (Exists_dec (fun k => ~ In (IInt (zn k)) l) (seq a n)) as [H|H].
  - intros k. destruct (in_dec item_eq_dec (IInt (zn k)) l); [right|left]; tauto.
  - apply Exists_exists in H. destruct H as (k & Hk & Hk'). apply in_seq in Hk. eauto.
  - exfalso.
    assert (Hincl : incl (map (fun k => IInt (zn k)) (seq a n)) l).
    { intros v Hv. apply in_map_iff in Hv. destruct Hv as (k & <- & Hk).
      destruct (in_dec item_eq_dec (IInt (zn k)) l) as [|Hc]; [auto|].
      exfalso. apply H. apply Exists_exists. eauto. }
    apply NoDup_incl_length in Hincl; [|apply seq_ints_nodup].
    rewrite map_length, seq_length in Hincl. lia.
Qed.

Lemma first_free_spec r l : rep r l -> forall fuel a k,
  (forall j, (a <= j < k)%nat -> In (IInt (zn j)) l) -> ~ In (IInt (zn k)) l -> (a <= k)%nat ->
  (k - a < fuel)%nat -> first_free fuel r (zn a) = Ok (zn k).
Proof.
  intros R. induction fuel as [|f IH]; intros a k H1 H2 H3 H4; [lia|]. simpl.
  rewrite (count_int_spec r l) by auto.
  destruct (Nat.eq_dec a k) as [->|n].
  - apply inb_false in H2. now rewrite H2.
  - assert (Ha : In (IInt (zn a)) l) by (apply H1; lia). apply inb_In in Ha. rewrite Ha.
    replace (zn a + 1) with (zn (S a)) by lia. apply IH; auto; try lia.
    intros j Hj. apply H1. lia.
Qed.

Lemma find_first l a n :
  (List.length l < n)%nat ->
  exists k, find (fun k => negb (inb (IInt (zn k)) l)) (seq a n) = Some k /\
    (a <= k < a + n)%nat /\ ~ In (IInt (zn k)) l /\
    (forall j, (a <= j < k)%nat -> In (IInt (zn j)) l).
Proof.
  intros Hn. destruct (free_below l a n Hn) as (k0 & Hk0 & Hf).
  assert (forall m b, (b <= k0 < b + m)%nat ->
    exists k, find (fun k => negb (inb (IInt (zn k)) l)) (seq b m) = Some k /\
    (b <= k < b + m)%nat /\ ~ In (IInt (zn k)) l /\
    (forall j, (b <= j < k)%nat -> In (IInt (zn j)) l)) as Haux.
  { induction m as [|m IH]; intros b Hb; [lia|]. simpl.
    destruct (inb (IInt (zn b)) l) eqn:E; simpl.
    - assert (b <> k0) by (intros ->; apply inb_In in E; tauto).
      destruct (IH (S b)) as (k & H1 & H2 & H3 & H4); [lia|].
      exists k. repeat split; auto; try lia. intros j Hj.
      destruct (Nat.eq_dec j b) as [->|]; [now apply inb_In|]. apply H4. lia.
    - exists b. apply inb_false in E. repeat split; auto; try lia. }
  apply Haux. exact Hk0.
Qed.

Lemma spec_auto_fresh l : ~ In (spec_auto l) l /\ exists k, spec_auto l = IInt (zn k).
Proof.
  unfold spec_auto. destruct (inb (IInt (zn (List.length l))) l) eqn:E; simpl negb; cbv iota.
  - destruct (find_first l 0 (S (List.length l))) as (k & -> & _ & H & _); [lia|]. eauto.
  - apply inb_false in E. eauto.
Qed.

Section PyEq.
Variable numeq : item -> Z -> bool.
Hypothesis numeq_plain : forall v z, numeq v z = true -> v = IInt z.

Lemma py_eqb_spec a b : reflect (a = b) (py_eqb numeq a b).
Proof.
  unfold py_eqb. destruct (item_eqb_spec a b) as [->|n]; [constructor; auto|].
  simpl. apply iff_reflect. split; [congruence|].
  rewrite orb_true_iff. intros [H|H].
  - destruct b; try discriminate. apply numeq_plain in H. congruence.
  - destruct a; try discriminate. apply numeq_plain in H. congruence.
Qed.

Lemma push_spec r l v :
  rep r l -> ~ In v l ->
  rep (fst (push numeq r v)) (fst (spec_push l v)) /\
  snd (push numeq r v) = snd (spec_push l v).
Proof.
  intros R Hv. unfold push, spec_push. rewrite (rep_stop _ _ R).
  destruct (ssize_ok (zn (List.length l) + 1)); simpl negb; cbv iota; [|simpl; auto].
  destruct (py_eqb_spec (IInt (zn (List.length l))) v) as [<-|n].
  - simpl. split; [|reflexivity]. rewrite <- (rep_stop _ _ R) at 1. apply rep_push_same; auto.
  - destruct (hashable v) eqn:Eh; [|simpl; auto]. split; [|reflexivity]. cbn [fst].
    rewrite <- (rep_stop _ _ R). apply rep_push_other; auto.
Qed.

Lemma append_spec r l v p :
  rep r l ->
  rep (fst (append numeq r v p)) (fst (spec_append l v p)) /\
  snd (append numeq r v p) = snd (spec_append l v p).
Proof.
  intros R.
  assert (Hgen : 
    let a := match count r v with
             | Err e => (r, Err e)
             | Ok true => if p then (r, Ok v) else (r, Err ValueError)
             | Ok false => push numeq r v
             end in
    let s := match spec_contains l v with
             | Err e => (l, Err e)
             | Ok true => (l, if p then Ok v else Err ValueError)
             | Ok false => spec_push l v
             end in
    rep (fst a) (fst s) /\ snd a = snd s).
  { simpl. rewrite (count_spec r l v R). unfold spec_contains.
    destruct (ask_exn v) as [e|]; [auto|].
    destruct (inb v l) eqn:E; [destruct p; auto|].
    apply inb_false in E. apply push_spec; auto. }
  destruct v; try apply Hgen. clear Hgen.
  cbn [append spec_append].
  destruct (spec_auto_fresh l) as [Hfresh (k & Hk)].
  rewrite (count_int_spec r l) by auto. rewrite (rep_stop _ _ R).
  destruct (inb (IInt (zn (List.length l))) l) eqn:E.
  - assert (Er : is_range r = false).
    { destruct (is_range r) eqn:Er; [|reflexivity]. exfalso.
      rewrite (is_range_spec r l R) in Er. apply inb_In in E. apply In_nth_error in E.
      destruct E as (i & Hi). pose proof (Er _ _ Hi) as E. zi. apply nth_lt in Hi. lia. }
    rewrite Er. simpl negb. simpl andb. cbv iota.
    destruct (find_first l 0 (S (List.length l))) as (j & Hj & H1 & H2 & H3); [lia|].
    change 0 with (zn 0). rewrite (first_free_spec r l R _ 0%nat j) by (auto; lia).
    assert (Ea : spec_auto l = IInt (zn j)).
    { unfold spec_auto. rewrite E. simpl negb. cbv iota. rewrite Hj. reflexivity. }
    rewrite <- Ea. apply push_spec; auto.
  - rewrite andb_false_r.
    assert (Ea : spec_auto l = IInt (zn (List.length l))).
    { unfold spec_auto. rewrite E. reflexivity. }
    rewrite <- Ea. apply push_spec; auto.
Qed.

Lemma extend_spec vs p : forall r l,
  rep r l ->
  rep (fst (extend numeq r vs p)) (fst (spec_extend l vs p)) /\
  snd (extend numeq r vs p) = snd (spec_extend l vs p).
Proof.
  induction vs as [|v vs IH]; intros r l R; simpl; [auto|].
  pose proof (append_spec r l v p R) as [H1 H2].
  destruct (append numeq r v p) as [r' o]. destruct (spec_append l v p) as [l' o'].
  simpl in *. subst o'. destruct o; [apply IH; auto|auto].
Qed.


(** ** Shrinking *)
Lemma pop_snoc r l v : rep r (l ++ [v]) -> rep (fst (pop r)) l /\ snd (pop r) = Ok v.
Proof.
  intros R. unfold pop. rewrite (rep_stop _ _ R), app_length. simpl.
  replace (List.length l + 1)%nat with (S (List.length l)) by lia. cbn [fst snd].
  set (n := List.length l).
  assert (Hlast : nth_error (l ++ [v]) n = Some v) by (apply nth_app_last; auto).
  rewrite (get_i2l r _ _ _ R Hlast). split; [|reflexivity].
  pose proof (rep_nodup _ _ R) as Hnd.
  assert (Hv : ~ In v l) by (apply NoDup_remove_2 in Hnd; rewrite app_nil_r in Hnd; auto).
  constructor; simpl.
  - reflexivity.
  - apply NoDup_remove_1 in Hnd. now rewrite app_nil_r in Hnd.
  - intros i w H. pose proof (nth_lt _ _ _ H) as Hl.
    rewrite dget_ddel_other; [|apply item_eqb_spec|intros E; zi; unfold n in E; lia].
    apply (rep_i2l _ _ R). apply nth_app_last; auto.
  - intros k w H. destruct (item_eq_dec (IInt (zn n)) k) as [<-|Hk].
    + rewrite dget_ddel_same in H by apply item_eqb_spec. discriminate.
    + rewrite dget_ddel_other in H by (auto using item_eqb_spec).
      destruct (rep_i2l_out _ _ R _ _ H) as (i & -> & Hi). exists i. split; [auto|].
      rewrite app_length in Hi. simpl in Hi. fold n in Hi.
      assert (i <> n) by congruence. fold n. lia.
  - intros u w. destruct (item_eq_dec v u) as [<-|Hu].
    + rewrite dget_ddel_same by apply item_eqb_spec. split; [discriminate|].
      intros (i & H & _). exfalso. apply Hv. eapply nth_error_In; eauto.
    + rewrite dget_ddel_other by (auto using item_eqb_spec). rewrite (rep_l2i _ _ R).
      split; intros (i & H1 & H2 & H3); exists i; (split; [|auto]).
      * apply nth_app_last in H1. destruct H1 as [H1|[_ ->]]; [auto|congruence].
      * apply nth_app_last; auto.
  - apply NoDup_ddel; [apply item_eqb_spec|]. apply (rep_i2l_nd _ _ R).
  - apply NoDup_ddel; [apply item_eqb_spec|]. apply (rep_l2i_nd _ _ R).
  - intros u H. apply (rep_hash _ _ R). apply in_or_app; auto.
Qed.

Lemma pop_spec r l : rep r l ->
  rep (fst (pop r)) (fst (spec_pop l)) /\ snd (pop r) = snd (spec_pop l).
Proof.
  intros R. unfold spec_pop. destruct (rev l) as [|v t] eqn:E.
  - apply (f_equal (@rev _)) in E. rewrite rev_involutive in E. simpl in E. subst l.
    unfold pop. rewrite (rep_stop _ _ R). simpl. auto.
  - apply (f_equal (@rev _)) in E. rewrite rev_involutive in E. simpl in E. subst l.
    cbn [fst snd]. apply pop_snoc. exact R.
Qed.

(** ** Lookup *)
Lemma position_spec v l : forall i, position v l = Some i -> nth_error l i = Some v.
Proof.
  induction l as [|x l IH]; intros i; simpl; [discriminate|].
  destruct (item_eqb_spec v x) as [->|n]; [intros [= <-]; reflexivity|].
  destruct (position v l); simpl; [|discriminate]. intros [= <-]. simpl. auto.
Qed.

Lemma position_None v l : position v l = None <-> ~ In v l.
Proof.
  induction l as [|x l IH]; simpl; [tauto|].
  destruct (item_eqb_spec v x) as [->|n]; [split; [discriminate|tauto]|].
  destruct (position v l); simpl.
  - split; [discriminate|]. intros H. exfalso. apply H. right.
    destruct (in_dec item_eq_dec v l); [auto|]. exfalso. destruct IH as [_ IH]. now apply IH in n1.
  - split; [|auto]. intros _ [E|E]; [congruence|]. now apply IH.
Qed.

Lemma position_In v l : In v l -> exists i, position v l = Some i /\ nth_error l i = Some v.
Proof.
  intros H. destruct (position v l) as [i|] eqn:E.
  - exists i. split; [auto|]. now apply position_spec.
  - apply position_None in E. tauto.
Qed.

Lemma lookup_index r l v i : rep r l -> nth_error l i = Some v ->
  (if is_range r then to_index v
   else match get v (l2i r) with Some w => to_index w | None => to_index v end) = Ok (zn i).
Proof.
  intros R H. destruct (is_range r) eqn:E.
  - rewrite (is_range_spec r l R) in E. now rewrite (E _ _ H).
  - destruct (get v (l2i r)) as [w|] eqn:Eg.
    + apply (rep_l2i _ _ R) in Eg. destruct Eg as (j & H1 & -> & _).
      rewrite (nth_unique _ _ _ _ (rep_nodup _ _ R) H H1). reflexivity.
    + destruct (item_eq_dec v (IInt (zn i))) as [->|n]; [reflexivity|].
      exfalso. assert (get v (l2i r) = Some (IInt (zn i))) by (apply (rep_l2i _ _ R); eauto).
      congruence.
Qed.

Lemma index_spec r l v p : rep r l ->
  rep (fst (index numeq r v p)) (fst (spec_index l v p)) /\
  snd (index numeq r v p) = snd (spec_index l v p).
Proof.
  intros R. unfold index, spec_index.
  assert (Hmain : forall r1 l1, rep r1 l1 ->
    (let? c := count r1 v in
     if c then if is_range r1 then to_index v
               else match get v (l2i r1) with Some w => to_index w | None => to_index v end
     else Err ValueError)
    = match ask_exn v with
      | Some e => Err e
      | None => match position v l1 with Some i => Ok (zn i) | None => Err ValueError end
      end).
  { intros r1 l1 R1. rewrite (count_spec r1 l1) by auto. unfold spec_contains.
    destruct (ask_exn v); [reflexivity|]. simpl bind.
    destruct (inb v l1) eqn:E.
    - apply inb_In in E. destruct (position_In v l1 E) as (i & -> & Hi).
      apply (lookup_index r1 l1); auto.
    - apply inb_false in E. apply position_None in E. now rewrite E. }
  destruct p.
  - pose proof (append_spec r l v true R) as [H1 H2].
    destruct (append numeq r v true) as [r' o]. destruct (spec_append l v true) as [l' o'].
    simpl in H1, H2. subst o'. destruct o; simpl; auto.
  - simpl. split; [auto|]. now apply Hmain.
Qed.

(** ** Relabelling *)
Definition sub1 (old new x : item) : item := if item_eqb x old then new else x.

Lemma nth_map {A B} (f : A -> B) l i : nth_error (map f l) i = option_map f (nth_error l i).
Proof. revert i. induction l as [|x l IH]; intros [|i]; simpl; auto. Qed.

Lemma nth_map_inv {A B} (f : A -> B) l i w :
  nth_error (map f l) i = Some w -> exists v, nth_error l i = Some v /\ w = f v.
Proof. rewrite nth_map. destruct (nth_error l i); simpl; [|discriminate]. intros [= <-]. eauto. Qed.

Lemma NoDup_map_inj {A B} (f : A -> B) l :
  NoDup l -> (forall x y, In x l -> In y l -> f x = f y -> x = y) -> NoDup (map f l).
Proof.
  induction 1 as [|x l Hx Hl IH]; intros Hf; simpl; constructor.
  - intros H. apply in_map_iff in H. destruct H as (y & E & Hy).
    apply Hx. rewrite (Hf x y); simpl; auto.
  - apply IH. intros a b Ha Hb. apply Hf; now right.
Qed.

Lemma rename_spec r l old new :
  rep r l -> In old l -> ~ In new l -> hashable new = true ->
  rep (rename numeq r (old, new)) (map (sub1 old new) l).
Proof.
  intros R Hold Hnew Hh. unfold rename.
  destruct (py_eqb_spec old new) as [->|Hne]; [tauto|].
  apply In_nth_error in Hold. destruct Hold as (i & Hi).
  assert (Hidx : match get old (l2i r) with Some w => w | None => old end = IInt (zn i)).
  { destruct (get old (l2i r)) as [w|] eqn:E.
    - apply (rep_l2i _ _ R) in E. destruct E as (j & H1 & -> & _).
      now rewrite (nth_unique _ _ _ _ (rep_nodup _ _ R) Hi H1).
    - destruct (item_eq_dec old (IInt (zn i))) as [|n]; [auto|]. exfalso.
      assert (get old (l2i r) = Some (IInt (zn i))) by (apply (rep_l2i _ _ R); eauto). congruence. }
  rewrite Hidx. clear Hidx.
  assert (Hsub : forall j v, nth_error l j = Some v ->
            sub1 old new v = if Nat.eq_dec j i then new else v).
  { intros j v Hj. unfold sub1. destruct (Nat.eq_dec j i) as [->|n].
    - replace v with old by congruence. now rewrite item_eqb_refl.
    - rewrite item_eqb_neq; [reflexivity|]. intros ->. apply n.
      apply (nth_unique l j i old (rep_nodup _ _ R)); auto. }
  assert (Hnth : forall j w, nth_error (map (sub1 old new) l) j = Some w <->
            (j = i /\ w = new) \/ (j <> i /\ nth_error l j = Some w)).
  { intros j w. rewrite nth_map. destruct (nth_error l j) as [v|] eqn:E; simpl.
    - rewrite (Hsub _ _ E). destruct (Nat.eq_dec j i) as [->|n]; split.
      + intros [= <-]; auto.
      + intros [[_ ->]|[? _]]; [auto|congruence].
      + intros [= <-]; auto.
      + intros [[? _]|[_ ?]]; [congruence|auto].
    - split; [discriminate|]. intros [[-> _]|[_ ?]]; congruence. }
  assert (Hndl : NoDup (map (sub1 old new) l)).
  { apply NoDup_map_inj; [apply (rep_nodup _ _ R)|]. intros x y Hx Hy. unfold sub1.
    destruct (item_eqb_spec x old), (item_eqb_spec y old); subst; auto; intros <-; tauto. }
  assert (Hhash : forall v, In v (map (sub1 old new) l) -> hashable v = true).
  { intros v Hv. apply in_map_iff in Hv. destruct Hv as (u & <- & Hu). unfold sub1.
    destruct (item_eqb u old); [auto|]. now apply (rep_hash _ _ R). }
  assert (Hilt : (i < List.length l)%nat) by (eapply nth_lt; eauto).
  assert (Hl2i : forall v w, v <> new ->
    (get v (del old (l2i r)) = Some w <->
     exists j, nth_error (map (sub1 old new) l) j = Some v /\ w = IInt (zn j) /\ v <> IInt (zn j))).
  { intros v w Hvn. destruct (item_eq_dec old v) as [<-|Ho].
    - rewrite dget_ddel_same by apply item_eqb_spec. split; [discriminate|].
      intros (j & H & _). apply Hnth in H. destruct H as [[_ ?]|[Hj H]]; [congruence|].
      exfalso. apply Hj. apply (nth_unique l j i old (rep_nodup _ _ R)); auto.
    - rewrite dget_ddel_other by (auto using item_eqb_spec). rewrite (rep_l2i _ _ R).
      split; intros (j & H1 & H2 & H3); exists j; (split; [|auto]).
      + apply Hnth. right. split; [|auto]. intros ->. congruence.
      + apply Hnth in H1. destruct H1 as [[_ ?]|[_ ?]]; [congruence|auto]. }
  destruct (py_eqb_spec new (IInt (zn i))) as [->|Hni]; simpl negb; cbv iota.
  - (* the new label is the position itself *)
    constructor; simpl; auto.
    + rewrite map_length. apply (rep_stop _ _ R).
    + intros j w H. apply Hnth in H. destruct H as [[-> ->]|[Hj H]].
      * rewrite dget_ddel_same by apply item_eqb_spec. now rewrite item_eqb_refl.
      * rewrite dget_ddel_other; [apply (rep_i2l _ _ R _ _ H)|apply item_eqb_spec|].
        intros E; zi; lia.
    + intros k w H. rewrite map_length.
      destruct (item_eq_dec (IInt (zn i)) k) as [<-|Hk].
      * exists i. auto.
      * rewrite dget_ddel_other in H by (auto using item_eqb_spec).
        apply (rep_i2l_out _ _ R _ _ H).
    + intros v w. destruct (item_eq_dec v (IInt (zn i))) as [->|Hv]; [|auto].
      split.
      * intros H. rewrite dget_ddel_other in H by (auto using item_eqb_spec).
        apply (rep_l2i _ _ R) in H. destruct H as (j & H & _).
        exfalso. apply Hnew. eapply nth_error_In; eauto.
      * intros (j & H1 & H2 & H3). apply Hnth in H1. destruct H1 as [[-> _]|[_ H1]]; [congruence|].
        exfalso. apply Hnew. eapply nth_error_In; eauto.
    + apply NoDup_ddel; [apply item_eqb_spec|]. apply (rep_i2l_nd _ _ R).
    + apply NoDup_ddel; [apply item_eqb_spec|]. apply (rep_l2i_nd _ _ R).
  - constructor; simpl; auto.
    + rewrite map_length. apply (rep_stop _ _ R).
    + intros j w H. apply Hnth in H. destruct H as [[-> ->]|[Hj H]].
      * rewrite dget_dset_same by apply item_eqb_spec. now rewrite item_eqb_neq.
      * rewrite dget_dset_other; [apply (rep_i2l _ _ R _ _ H)|apply item_eqb_spec|].
        intros E; zi; lia.
    + intros k w H. rewrite map_length.
      destruct (item_eq_dec (IInt (zn i)) k) as [<-|Hk].
      * exists i. auto.
      * rewrite dget_dset_other in H by (auto using item_eqb_spec).
        apply (rep_i2l_out _ _ R _ _ H).
    + intros v w. destruct (item_eq_dec new v) as [<-|Hv].
      * rewrite dget_dset_same by apply item_eqb_spec. split.
        -- intros [= <-]. exists i. split; [apply Hnth; auto|auto].
        -- intros (j & H1 & -> & H3). apply Hnth in H1. destruct H1 as [[-> _]|[_ H1]]; [auto|].
           exfalso. apply Hnew. eapply nth_error_In; eauto.
      * rewrite dget_dset_other by (auto using item_eqb_spec). auto.
    + apply NoDup_dset; [apply item_eqb_spec|]. apply (rep_i2l_nd _ _ R).
    + apply NoDup_dset; [apply item_eqb_spec|]. apply NoDup_ddel; [apply item_eqb_spec|].
      apply (rep_l2i_nd _ _ R).
Qed.

Lemma subst_cons o n m v : subst ((o, n) :: m) v = if item_eqb v o then n else subst m v.
Proof. unfold subst. simpl. destruct (item_eqb v o); reflexivity. Qed.

Lemma subst_notin m v : ~ In v (map fst m) -> subst m v = v.
Proof.
  intros H. unfold subst. apply (dget_None _ item_eqb_spec) in H. now rewrite H.
Qed.

Lemma subst_in m v : In v (map fst m) -> In (v, subst m v) m.
Proof.
  intros H. unfold subst. destruct (get v m) as [w|] eqn:E.
  - now apply (dget_In _ item_eqb_spec) in E.
  - apply (dget_None _ item_eqb_spec) in E. tauto.
Qed.

Lemma subst_lookup m v w : NoDup (map fst m) -> In (v, w) m -> subst m v = w.
Proof. intros Hn H. unfold subst. rewrite (In_dget _ item_eqb_spec _ _ _ Hn H). reflexivity. Qed.

(** Renaming one after the other, with targets that are all unused, is a simultaneous renaming. *)
Lemma renames_spec m : forall r l,
  rep r l ->
  NoDup (map fst m) -> NoDup (map snd m) ->
  (forall k, In k (map fst m) -> In k l) ->
  (forall w, In w (map snd m) -> ~ In w l) ->
  (forall w, In w (map snd m) -> hashable w = true) ->
  rep (fold_left (rename numeq) m r) (map (subst m) l).
Proof.
  induction m as [|[o n] m IH]; intros r l R Hk Hv Hin Hout Hh.
  - simpl. replace (map (subst []) l) with l; [auto|].
    rewrite <- (map_id l) at 1. apply map_ext. intros x. reflexivity.
  - cbn [fold_left]. simpl in Hk, Hv. inversion Hk as [|? ? Hk1 Hk2]; subst.
    inversion Hv as [|? ? Hv1 Hv2]; subst.
    assert (R' : rep (rename numeq r (o, n)) (map (sub1 o n) l)).
    { apply rename_spec; auto.
      - apply Hin; now left.
      - apply Hout; now left.
      - apply Hh; now left. }
    apply IH in R'; auto.
    + rewrite map_map in R'.
      replace (map (subst ((o, n) :: m)) l) with (map (fun x => subst m (sub1 o n x)) l); [auto|].
      apply map_ext_in. intros x Hx. rewrite subst_cons. unfold sub1.
      destruct (item_eqb_spec x o) as [->|Hxo]; [|reflexivity].
      apply subst_notin. intros Hc. apply (Hout n); [now left|]. apply Hin. now right.
    + intros k Hkin. apply in_map_iff. exists k. split.
      * unfold sub1. rewrite item_eqb_neq; [auto|]. intros ->. tauto.
      * apply Hin. now right.
    + intros w Hw Hc. apply in_map_iff in Hc. destruct Hc as (x & E & Hx). unfold sub1 in E.
      destruct (item_eqb_spec x o) as [Hxo|Hxo].
      * rewrite E in Hv1. tauto.
      * rewrite E in Hx. apply (Hout w); [now right|auto].
    + intros w Hw. apply Hh. now right.
Qed.

(** The dictionary [new_labels]. *)
Lemma new_labels_keys (m : list (item * item)) : forall d : list (item * item),
  let d' := fold_left (fun d p => set (snd p) (fst p) d) m d in
  (forall v, In v (map fst d') <-> In v (map fst d) \/ In v (map snd m)).
Proof.
  induction m as [|[o n] m IH]; intros d; simpl; [tauto|].
  intros v. rewrite IH. rewrite (map_fst_dset _ item_eqb_spec). unfold dmem.
  destruct (get n d) eqn:E.
  - assert (In n (map fst d)).
    { apply (dget_In _ item_eqb_spec) in E. apply in_map_iff. exists (n, i); auto. }
    intuition (subst; auto).
  - rewrite in_app_iff. simpl. intuition.
Qed.

Lemma new_labels_len (m : list (item * item)) : forall d : list (item * item),
  NoDup (map fst d) ->
  let d' := fold_left (fun d p => set (snd p) (fst p) d) m d in
  (List.length d' <= List.length d + List.length m)%nat /\
  (List.length d' = List.length d + List.length m <->
     NoDup (map snd m) /\ (forall v, In v (map snd m) -> ~ In v (map fst d)))%nat /\
  (NoDup (map snd m) -> (forall v, In v (map snd m) -> ~ In v (map fst d)) ->
     map fst d' = map fst d ++ map snd m).
Proof.
  induction m as [|[o n] m IH]; intros d Hd; simpl.
  - rewrite app_nil_r. split; [lia|]. split; [|auto]. split; [intros _|lia].
    split; [constructor|tauto].
  - specialize (IH (set n o d) (NoDup_dset _ item_eqb_spec _ _ _ Hd)). simpl in IH.
    assert (Hlen : List.length (set n o d) = if mem n d then List.length d else S (List.length d)).
    { rewrite <- (map_length fst (set n o d)), (map_fst_dset _ item_eqb_spec).
      destruct (mem n d); rewrite ?app_length, map_length; simpl; lia. }
    destruct IH as (I1 & I2 & I3). rewrite Hlen in *. unfold dmem in *.
    destruct (get n d) eqn:E.
    + assert (Hin : In n (map fst d)).
      { apply (dget_In _ item_eqb_spec) in E. apply in_map_iff. exists (n, i); auto. }
      split; [lia|]. split; [split|].
      * lia.
      * intros [_ H]. exfalso. apply (H n); auto.
      * intros _ H. exfalso. apply (H n); auto.
    + apply (dget_None _ item_eqb_spec) in E.
      assert (Hk : map fst (set n o d) = map fst d ++ [n]).
      { rewrite (map_fst_dset _ item_eqb_spec). unfold dmem.
        apply (dget_None _ item_eqb_spec) in E. now rewrite E. }
      rewrite Hk in *.
      split; [lia|]. split; [split|].
      * intros H. destruct I2 as [I2 _]. destruct I2 as [J1 J2]; [lia|]. split.
        -- constructor; [|auto]. intros Hc. apply (J2 _ Hc). apply in_or_app. right. now left.
        -- intros v [<-|Hv]; [auto|]. intros Hc. apply (J2 _ Hv). apply in_or_app; auto.
      * intros [H1 H2]. inversion H1 as [|? ? H3 H4]; subst. destruct I2 as [_ I2].
        rewrite I2; [lia|]. split; [auto|]. intros v Hv Hc. apply in_app_or in Hc.
        destruct Hc as [Hc|[<-|[]]]; [|tauto]. apply (H2 v); auto.
      * intros H1 H2. inversion H1 as [|? ? H3 H4]; subst. rewrite I3; auto.
        -- now rewrite <- app_assoc.
        -- intros v Hv Hc. apply in_app_or in Hc.
           destruct Hc as [Hc|[<-|[]]]; [|tauto]. apply (H2 v); auto.
Qed.

Lemma nodupb_spec l : nodupb l = true <-> NoDup l.
Proof.
  induction l as [|x l IH]; simpl; [split; [constructor|auto]|].
  rewrite andb_true_iff, negb_true_iff, inb_false, IH. split.
  - intros [H1 H2]. constructor; auto.
  - intros H. inversion H; auto.
Qed.

Lemma mem_keys (m : list (item * item)) v : mem v m = inb v (map fst m).
Proof.
  apply eq_true_iff_eq. rewrite inb_In. unfold dmem. destruct (get v m) as [w|] eqn:E.
  - split; [|auto]. intros _. apply (dget_In _ item_eqb_spec) in E.
    apply in_map_iff. exists (v, w); auto.
  - apply (dget_None _ item_eqb_spec) in E. split; [discriminate|tauto].
Qed.

Lemma check_new_spec r l keys f news :
  rep r l -> (forall v, f v = inb v keys) -> check_new r f news = spec_check l keys news.
Proof.
  intros R Hf. induction news as [|v vs IH]; simpl; [reflexivity|].
  rewrite (count_spec r l) by auto. destruct (spec_contains l v); simpl; [|reflexivity].
  rewrite Hf, IH. reflexivity.
Qed.

Lemma spec_check_ok l keys news :
  spec_check l keys news = Ok tt -> forall v, In v news -> In v l -> In v keys.
Proof.
  induction news as [|w ws IH]; simpl; [tauto|].
  unfold spec_contains. destruct (ask_exn w); simpl; [discriminate|].
  destruct (inb w l && negb (inb w keys)) eqn:E; [discriminate|].
  intros H v [<-|Hv] Hl; [|auto].
  apply inb_In in Hl. rewrite Hl in E. simpl in E. apply negb_false_iff in E. now apply inb_In.
Qed.

(** ** Temporary labels *)
Lemma fresh_label_spec used : forall fuel a k,
  (forall j, (a <= j < k)%nat -> used (zn j) = true) -> used (zn k) = false -> (a <= k)%nat ->
  (k - a < fuel)%nat -> fresh_label fuel used (zn a) = Ok (zn k).
Proof.
  induction fuel as [|f IH]; intros a k H1 H2 H3 H4; [lia|]. simpl.
  destruct (Nat.eq_dec a k) as [->|n].
  - now rewrite H2.
  - rewrite H1 by lia. replace (zn a + 1) with (zn (S a)) by lia. apply IH; auto; try lia.
    intros j Hj. apply H1. lia.
Qed.

Lemma fresh_label_ok used (taken : list item) :
  (forall z, used z = inb (IInt z) taken) ->
  forall fuel a, (List.length taken < fuel)%nat ->
  exists k, fresh_label fuel used (zn a) = Ok (zn k) /\ (a <= k)%nat /\ ~ In (IInt (zn k)) taken.
Proof.
  intros Hu fuel a Hf.
  destruct (find_first taken a fuel Hf) as (k & _ & H1 & H2 & H3).
  exists k. split; [|split; [lia|auto]].
  apply fresh_label_spec; try lia.
  - intros j Hj. rewrite Hu. apply inb_In. apply H3. lia.
  - rewrite Hu. now apply inb_false.
Qed.

(** The shape of the two sub-maps of [_resolve_label_conflict]. *)
Inductive resolved (taken olds news : list item) :
  list (item * item) -> nat -> list (item * item) -> list (item * item) -> Prop :=
| R_nil a : resolved taken olds news [] a [] []
| R_self o m a s1 s2 :
    resolved taken olds news m a s1 s2 -> resolved taken olds news ((o, o) :: m) a s1 s2
| R_conf o n m a k s1 s2 :
    o <> n -> (In o news \/ In n olds) -> (a <= k)%nat -> ~ In (IInt (zn k)) taken ->
    resolved taken olds news m (S k) s1 s2 ->
    resolved taken olds news ((o, n) :: m) a ((o, IInt (zn k)) :: s1) ((IInt (zn k), n) :: s2)
| R_plain o n m a s1 s2 :
    o <> n -> ~ In o news -> ~ In n olds ->
    resolved taken olds news m a s1 s2 ->
    resolved taken olds news ((o, n) :: m) a ((o, n) :: s1) s2.

Lemma resolve_loop_spec used taken fuel isold isnew olds news :
  (forall z, used z = inb (IInt z) taken) ->
  (forall v, isold v = inb v olds) -> (forall v, isnew v = inb v news) ->
  (List.length taken < fuel)%nat ->
  forall m a, exists s1 s2,
    resolve_loop numeq m used fuel isold isnew (zn a) = Ok (s1, s2) /\
    resolved taken olds news m a s1 s2.
Proof.
  intros Hu Ho Hn Hf. induction m as [|[o n] m IH]; intros a.
  - exists [], []. split; [reflexivity|constructor].
  - cbn [resolve_loop]. destruct (py_eqb_spec o n) as [->|Hne].
    + destruct (IH a) as (s1 & s2 & E & H). exists s1, s2. split; [auto|]. constructor; auto.
    + rewrite Ho, Hn.
      destruct (inb o news || inb n olds) eqn:Ec.
      * destruct (fresh_label_ok used taken Hu fuel a Hf) as (k & Ek & Hak & Hfk).
        rewrite Ek. cbn [bind]. replace (zn k + 1) with (zn (S k)) by lia.
        destruct (IH (S k)) as (s1 & s2 & E & H). rewrite E. cbn [bind fst snd].
        exists ((o, IInt (zn k)) :: s1), ((IInt (zn k), n) :: s2). split; [reflexivity|].
        constructor; auto. rewrite orb_true_iff, !inb_In in Ec. exact Ec.
      * destruct (IH a) as (s1 & s2 & E & H). rewrite E. cbn [bind fst snd].
        exists ((o, n) :: s1), s2. split; [reflexivity|].
        apply orb_false_iff in Ec. rewrite !inb_false in Ec. destruct Ec. constructor; auto.
Qed.

Section Resolved.
Variables taken olds news : list item.
Notation resolved := (resolved taken olds news).

Lemma resolved_keys1 m a s1 s2 : resolved m a s1 s2 ->
  (forall o, In o (map fst s1) -> In o (map fst m)).
Proof. induction 1; simpl; intros x Hx; [tauto| | |]; intuition. Qed.

Lemma resolved_keys1_nodup m a s1 s2 : resolved m a s1 s2 ->
  NoDup (map fst m) -> NoDup (map fst s1).
Proof.
  induction 1 as [|o m a s1 s2 H IH|o n m a k s1 s2 H1 H2 H3 H4 H IH|o n m a s1 s2 H1 H2 H3 H IH];
    simpl; intros Hn; [constructor| | |]; inversion Hn as [|? ? Hn1 Hn2]; subst; auto;
    (constructor; [|auto]; intros Hc; apply Hn1; eapply resolved_keys1; eauto).
Qed.

Lemma resolved_vals1 m a s1 s2 : resolved m a s1 s2 ->
  forall w, In w (map snd s1) ->
    (exists k, w = IInt (zn k) /\ (a <= k)%nat /\ ~ In w taken) \/
    (In w (map snd m) /\ ~ In w olds).
Proof.
  induction 1 as [|o m a s1 s2 H IH|o n m a k s1 s2 H1 H2 H3 H4 H IH|o n m a s1 s2 H1 H2 H3 H IH];
    simpl; intros w Hw; [tauto| | |].
  - destruct (IH w Hw) as [?|[? ?]]; auto.
  - destruct Hw as [<-|Hw]; [left; eauto|].
    destruct (IH w Hw) as [(j & ? & ? & ?)|[? ?]]; [|auto]. left. exists j. repeat split; auto. lia.
  - destruct Hw as [<-|Hw]; [auto|].
    destruct (IH w Hw) as [(j & ? & ? & ?)|[? ?]]; [|auto]. left. exists j. auto.
Qed.

Lemma resolved_vals1_nodup m a s1 s2 : resolved m a s1 s2 ->
  (forall w, In w (map snd m) -> In w taken) ->
  NoDup (map snd m) -> NoDup (map snd s1).
Proof.
  induction 1 as [|o m a s1 s2 H IH|o n m a k s1 s2 H1 H2 H3 H4 H IH|o n m a s1 s2 H1 H2 H3 H IH];
    simpl; intros Ht Hn; [constructor| | |]; inversion Hn as [|? ? Hn1 Hn2]; subst.
  - apply IH; auto.
  - constructor; [|apply IH; auto]. intros Hc.
    destruct (resolved_vals1 _ _ _ _ H _ Hc) as [(j & E & Hj & _)|[Hc' _]].
    + zi. lia.
    + apply H4. apply Ht. auto.
  - constructor; [|apply IH; auto]. intros Hc.
    destruct (resolved_vals1 _ _ _ _ H _ Hc) as [(j & E & Hj & Hc')|[Hc' _]]; [|tauto].
    apply Hc'. apply Ht. auto.
Qed.

Lemma resolved_keys2 m a s1 s2 : resolved m a s1 s2 ->
  forall x, In x (map fst s2) -> exists k, x = IInt (zn k) /\ (a <= k)%nat /\ ~ In x taken.
Proof.
  induction 1 as [|o m a s1 s2 H IH|o n m a k s1 s2 H1 H2 H3 H4 H IH|o n m a s1 s2 H1 H2 H3 H IH];
    simpl; intros x Hx; [tauto|auto| |auto].
  destruct Hx as [<-|Hx]; [eauto|]. destruct (IH _ Hx) as (j & ? & ? & ?).
  exists j. repeat split; auto. lia.
Qed.

Lemma resolved_keys2_nodup m a s1 s2 : resolved m a s1 s2 -> NoDup (map fst s2).
Proof.
  induction 1 as [|o m a s1 s2 H IH|o n m a k s1 s2 H1 H2 H3 H4 H IH|o n m a s1 s2 H1 H2 H3 H IH];
    simpl; [constructor|auto| |auto].
  constructor; [|auto]. intros Hc. destruct (resolved_keys2 _ _ _ _ H _ Hc) as (j & E & Hj & _).
  zi. lia.
Qed.

Lemma resolved_vals2 m a s1 s2 : resolved m a s1 s2 ->
  forall n, In n (map snd s2) -> exists o, In (o, n) m /\ o <> n /\ (In o news \/ In n olds).
Proof.
  induction 1 as [|o m a s1 s2 H IH|o n m a k s1 s2 H1 H2 H3 H4 H IH|o n m a s1 s2 H1 H2 H3 H IH];
    simpl; intros x Hx; [tauto| | |].
  - destruct (IH _ Hx) as (o' & ? & ?). exists o'; auto.
  - destruct Hx as [<-|Hx]; [exists o; auto|]. destruct (IH _ Hx) as (o' & ? & ?). exists o'; auto.
  - destruct (IH _ Hx) as (o' & ? & ?). exists o'; auto.
Qed.

Lemma resolved_vals2_nodup m a s1 s2 : resolved m a s1 s2 ->
  NoDup (map snd m) -> NoDup (map snd s2).
Proof.
  induction 1 as [|o m a s1 s2 H IH|o n m a k s1 s2 H1 H2 H3 H4 H IH|o n m a s1 s2 H1 H2 H3 H IH];
    simpl; intros Hn; [constructor| | |]; inversion Hn as [|? ? Hn1 Hn2]; subst; auto.
  constructor; [|auto]. intros Hc. destruct (resolved_vals2 _ _ _ _ H _ Hc) as (o' & A & _).
  apply Hn1. apply in_map_iff. exists (o', n). auto.
Qed.

(** A key is renamed to a label known to the second map, or directly. *)
Lemma resolved_link m a s1 s2 : resolved m a s1 s2 ->
  forall x, In x (map fst s2) -> In x (map snd s1).
Proof. induction 1; simpl; intros y Hy; [tauto| | |]; intuition. Qed.

Lemma resolved_subst m a s1 s2 : resolved m a s1 s2 ->
  (forall v, In v (map fst m) -> In v taken) ->
  (forall v, In v (map snd m) -> In v taken) ->
  NoDup (map fst m) ->
  forall v, In v taken -> subst s2 (subst s1 v) = subst m v.
Proof.
  induction 1 as [|o m a s1 s2 H IH|o n m a k s1 s2 H1 H2 H3 H4 H IH|o n m a s1 s2 H1 H2 H3 H IH];
    simpl; intros Tk Tv Hn v Hv; [reflexivity| | |]; inversion Hn as [|? ? Hn1 Hn2]; subst.
  - rewrite subst_cons. destruct (item_eqb_spec v o) as [->|Hvo]; [|apply IH; auto].
    rewrite (subst_notin s1).
    + apply subst_notin. intros Hc. destruct (resolved_keys2 _ _ _ _ H _ Hc) as (j & _ & _ & Hc').
      tauto.
    + intros Hc. apply Hn1. eapply resolved_keys1; eauto.
  - rewrite !(subst_cons o). destruct (item_eqb_spec v o) as [->|Hvo].
    + rewrite subst_cons. now rewrite item_eqb_refl.
    + rewrite subst_cons. rewrite item_eqb_neq; [apply IH; auto|].
      intros E. destruct (in_dec item_eq_dec v (map fst s1)) as [Hi|Hi].
      * apply subst_in in Hi.
        assert (Hw : In (subst s1 v) (map snd s1)) by (apply in_map_iff; exists (v, subst s1 v); auto).
        rewrite E in Hw. destruct (resolved_vals1 _ _ _ _ H _ Hw) as [(j & E' & Hj & _)|[Hm _]].
        -- zi. lia.
        -- apply H4. apply Tv. auto.
      * rewrite subst_notin in E by auto. subst v. tauto.
  - rewrite !(subst_cons o). destruct (item_eqb_spec v o) as [->|Hvo]; [|apply IH; auto].
    apply subst_notin. intros Hc. destruct (resolved_keys2 _ _ _ _ H _ Hc) as (j & _ & _ & Hc').
    apply Hc'. apply Tv. auto.
Qed.

Lemma resolved_conf_image m a s1 s2 : resolved m a s1 s2 ->
  NoDup (map fst m) ->
  forall o n, In (o, n) m -> o <> n -> (In o news \/ In n olds) ->
  exists k, subst s1 o = IInt (zn k) /\ ~ In (IInt (zn k)) taken.
Proof.
  induction 1 as [|o m a s1 s2 H IH|o n m a k s1 s2 H1 H2 H3 H4 H IH|o n m a s1 s2 H1 H2 H3 H IH];
    simpl; intros Hn o' n' Hin Hne Hc; [tauto| | |]; inversion Hn as [|? ? Hn1 Hn2]; subst.
  - destruct Hin as [E|Hin]; [congruence|eauto].
  - rewrite subst_cons. destruct Hin as [E|Hin].
    + injection E as <- <-. rewrite item_eqb_refl. eauto.
    + rewrite item_eqb_neq; [eauto|]. intros ->. apply Hn1. apply in_map_iff. exists (o, n'); auto.
  - rewrite subst_cons. destruct Hin as [E|Hin].
    + injection E as <- <-. tauto.
    + rewrite item_eqb_neq; [eauto|]. intros ->. apply Hn1. apply in_map_iff. exists (o, n'); auto.
Qed.
End Resolved.

Lemma spec_check_eq l keys n1 : spec_check l keys n1 = Ok tt \/ exists e, spec_check l keys n1 = Err e.
Proof. destruct (spec_check l keys n1) as [[]|e]; eauto. Qed.

Lemma relabel_spec r l m :
  rep r l -> NoDup (map fst m) -> (forall k, In k (map fst m) -> In k l) ->
  rep (fst (relabel numeq r m)) (fst (spec_relabel l m)) /\
  snd (relabel numeq r m) = snd (spec_relabel l m).
Proof.
  intros R Hk Hin. unfold relabel, spec_relabel, iter_safe_relabels.
  destruct (forallb (fun p => hashable (snd p)) m) eqn:Eh; simpl negb; cbv iota; [|simpl; auto].
  pose proof (new_labels_len m [] (NoDup_nil _)) as Hlen. cbn beta zeta in Hlen.
  pose proof (new_labels_keys m []) as Hkeys. cbn beta zeta in Hkeys.
  set (nl := fold_left (fun d p => set (snd p) (fst p) d) m []) in *.
  simpl in Hlen. destruct Hlen as (L1 & L2 & L3).
  destruct (nodupb (map snd m)) eqn:Ed; simpl negb; cbv iota.
  2:{ assert (Hl : (List.length nl <> List.length m)%nat).
      { intros E. apply L2 in E. destruct E as [E _]. apply nodupb_spec in E. congruence. }
      destruct (Nat.ltb_spec (List.length nl) (List.length m)); [simpl; auto|lia]. }
  apply nodupb_spec in Ed.
  assert (Hlm : List.length nl = List.length m).
  { apply L2. split; [auto|]. intros v _ []. }
  rewrite Hlm, Nat.ltb_irrefl.
  assert (Hnl : map fst nl = map snd m) by (apply L3; [auto|intros v _ []]).
  rewrite Hnl.
  rewrite (check_new_spec r l (map fst m)) by (auto using mem_keys).
  destruct (spec_check_eq l (map fst m) (map snd m)) as [Ec|(e & Ec)]; rewrite Ec;
    [|simpl; auto].
  cbn [bind]. pose proof (spec_check_ok _ _ _ Ec) as Hcheck.
  assert (Hhash : forall w, In w (map snd m) -> hashable w = true).
  { intros w Hw. apply in_map_iff in Hw. destruct Hw as (p & <- & Hp).
    rewrite forallb_forall in Eh. auto. }
  destruct (existsb (fun p => mem (fst p) nl) m) eqn:Ex.
  - (* conflict *)
    set (taken := map snd m ++ map fst m ++ l).
    edestruct (resolve_loop_spec
      (fun z => mem (IInt z) nl || mem (IInt z) m || count_int r z) taken
      (S (2 * List.length m + stop r)) (fun v => mem v m) (fun v => mem v nl)
      (map fst m) (map snd m)) with (m := m) (a := (2 * List.length m)%nat)
      as (s1 & s2 & E & Hres).
    + intros z. rewrite !mem_keys, Hnl, (count_int_spec r l) by auto.
      unfold taken, inb. rewrite !existsb_app. now rewrite orb_assoc.
    + intros v. apply mem_keys.
    + intros v. now rewrite mem_keys, Hnl.
    + unfold taken. rewrite !app_length, !map_length, (rep_stop _ _ R). lia.
    + replace (2 * zn (List.length m)) with (zn (2 * List.length m)) by lia.
      rewrite E. cbn [bind fst snd fold_left]. split; [|reflexivity].
      assert (Tk : forall v, In v (map fst m) -> In v taken).
      { intros v Hv. unfold taken. rewrite !in_app_iff. auto. }
      assert (Tv : forall v, In v (map snd m) -> In v taken).
      { intros v Hv. unfold taken. rewrite !in_app_iff. auto. }
      assert (Tl : forall v, In v l -> In v taken).
      { intros v Hv. unfold taken. rewrite !in_app_iff. auto. }
      assert (R1 : rep (fold_left (rename numeq) s1 r) (map (subst s1) l)).
      { apply renames_spec; auto.
        - eapply resolved_keys1_nodup; eauto.
        - eapply resolved_vals1_nodup; eauto.
        - intros k Hki. apply Hin. eapply resolved_keys1; eauto.
        - intros w Hw Hl. destruct (resolved_vals1 _ _ _ _ _ _ _ Hres _ Hw) as [(j & _ & _ & Hc)|[Hc Hc']].
          + apply Hc. auto.
          + apply Hc'. apply Hcheck; auto.
        - intros w Hw. destruct (resolved_vals1 _ _ _ _ _ _ _ Hres _ Hw) as [(j & -> & _)|[Hc _]];
            [reflexivity|auto]. }
      assert (R2 : rep (fold_left (rename numeq) s2 (fold_left (rename numeq) s1 r))
                       (map (subst s2) (map (subst s1) l))).
      { apply renames_spec; auto.
        - eapply resolved_keys2_nodup; eauto.
        - eapply resolved_vals2_nodup; eauto.
        - intros x Hx. pose proof (resolved_link _ _ _ _ _ _ _ Hres _ Hx) as Hx1.
          apply in_map_iff in Hx1. destruct Hx1 as ((o & x') & E1 & E2). simpl in E1. subst x'.
          apply in_map_iff. exists o. split.
          + apply subst_lookup; [|auto]. eapply resolved_keys1_nodup; eauto.
          + apply Hin. eapply resolved_keys1; [eauto|]. apply in_map_iff. exists (o, x). auto.
        - intros n Hn Hc. destruct (resolved_vals2 _ _ _ _ _ _ _ Hres _ Hn) as (o & Ho & Hon & Hconf).
          assert (Hnm : In n (map snd m)) by (apply in_map_iff; exists (o, n); auto).
          apply in_map_iff in Hc. destruct Hc as (v & Ev & Hv).
          pose proof (resolved_subst _ _ _ _ _ _ _ Hres Tk Tv Hk v (Tl _ Hv)) as Hs.
          rewrite Ev in Hs. rewrite (subst_notin s2) in Hs.
          2:{ intros Hc. destruct (resolved_keys2 _ _ _ _ _ _ _ Hres _ Hc) as (j & _ & _ & Hc').
              apply Hc'. auto. }
          (* n is the image of v, so v is the key of n in m *)
          assert (Hvo : v = o).
          { destruct (in_dec item_eq_dec v (map fst m)) as [Hvm|Hvm].
            - apply subst_in in Hvm. rewrite <- Hs in Hvm.
              clear - Ed Hvm Ho. induction m as [|[a b] m IH]; [destruct Ho|].
              simpl in Ed. inversion Ed as [|? ? Hb Hm]; subst.
              destruct Hvm as [E1|E1], Ho as [E2|E2].
              + congruence.
              + injection E1 as -> ->. exfalso. apply Hb. apply in_map_iff. exists (o, n); auto.
              + injection E2 as -> ->. exfalso. apply Hb. apply in_map_iff. exists (v, n); auto.
              + auto.
            - rewrite subst_notin in Hs by auto. subst v. exfalso. apply Hvm. apply Hcheck; auto. }
          subst v.
          (* but o was renamed to a temporary label *)
          destruct (resolved_conf_image _ _ _ _ _ _ _ Hres Hk _ _ Ho Hon Hconf) as (k & Ek & Hf).
          apply Hf. rewrite <- Ek, Ev. auto.
        - intros n Hn. destruct (resolved_vals2 _ _ _ _ _ _ _ Hres _ Hn) as (o & Ho & _).
          apply Hhash. apply in_map_iff. exists (o, n); auto. }
      rewrite map_map in R2.
      replace (map (subst m) l) with (map (fun x => subst s2 (subst s1 x)) l); [exact R2|].
      apply map_ext_in. intros v Hv. eapply resolved_subst; eauto.
  - (* no conflict *)
    cbn [fold_left fst snd]. split; [|reflexivity].
    apply renames_spec; auto.
    intros w Hw Hl. pose proof (Hcheck _ Hw Hl) as Hwk.
    apply in_map_iff in Hwk. destruct Hwk as ((a & b) & E1 & E2). simpl in E1. subst a.
    assert (Hb : existsb (fun p => mem (fst p) nl) m = true); [|congruence].
    apply existsb_exists. exists (w, b). split; [auto|]. simpl. rewrite mem_keys, Hnl.
    now apply inb_In.
Qed.


(** ** Well-formed lists: what a reachable register holds *)
Record wf (l : list item) : Prop := {
  wf_ask : forall v, In v l -> ask_exn v = None;
  wf_len : ssize_ok (zn (List.length l)) = true
}.

Lemma ssize_ok_iff z : ssize_ok z = true <-> - 2 ^ 63 <= z < 2 ^ 63.
Proof. unfold ssize_ok. rewrite andb_true_iff, Z.leb_le, Z.ltb_lt. tauto. Qed.

Lemma ask_nat k : ssize_ok (zn k) = true -> ask_exn (IInt (zn k)) = None.
Proof. intros H. simpl. now rewrite H. Qed.

Lemma spec_auto_ask l : ssize_ok (zn (List.length l)) = true -> ask_exn (spec_auto l) = None.
Proof.
  intros H. unfold spec_auto.
  destruct (inb (IInt (zn (List.length l))) l) eqn:E; simpl negb; cbv iota.
  - destruct (find_first l 0 (S (List.length l))) as (k & -> & Hk & _ & _); [lia|].
    apply ask_nat. rewrite ssize_ok_iff in *. lia.
  - now apply ask_nat.
Qed.

Lemma wf_push l v : wf l -> ask_exn v = None -> wf (fst (spec_push l v)).
Proof.
  intros W Hv. unfold spec_push.
  destruct (ssize_ok (zn (List.length l) + 1)) eqn:E; simpl; [|exact W].
  destruct (hashable v); simpl; [|exact W]. constructor.
  - intros u Hu. apply in_app_or in Hu. destruct Hu as [Hu|[<-|[]]]; [now apply (wf_ask _ W)|auto].
  - rewrite app_length. simpl. now replace (zn (List.length l + 1)) with (zn (List.length l) + 1) by lia.
Qed.

Lemma wf_append l v p : wf l -> wf (fst (spec_append l v p)).
Proof.
  intros W.
  assert (Hgen : wf (fst match spec_contains l v with
      | Err e => (l, Err e)
      | Ok true => (l, if p then Ok v else Err ValueError)
      | Ok false => spec_push l v
      end)).
  { unfold spec_contains. destruct (ask_exn v) eqn:E; [exact W|].
    destruct (inb v l); [exact W|]. now apply wf_push. }
  destruct v; try exact Hgen. simpl. apply wf_push; [auto|]. apply spec_auto_ask. apply (wf_len _ W).
Qed.

Lemma wf_extend vs p : forall l, wf l -> wf (fst (spec_extend l vs p)).
Proof.
  induction vs as [|v vs IH]; intros l W; simpl; [auto|].
  pose proof (wf_append l v p W) as H. destruct (spec_append l v p) as [l' [x|e]]; simpl in *; auto.
Qed.

Lemma wf_sub l l' : wf l -> (forall v, In v l' -> In v l) -> (List.length l' <= List.length l)%nat -> wf l'.
Proof.
  intros W Hs Hl. constructor.
  - intros v Hv. apply (wf_ask _ W). auto.
  - pose proof (wf_len _ W) as H. rewrite ssize_ok_iff in *. lia.
Qed.

(** ** Removal *)
Fixpoint zipnext (v : item) (post : list item) : list (item * item) :=
  match post with [] => [] | w :: post' => (v, w) :: zipnext w post' end.

Lemma zipnext_snd v post : map snd (zipnext v post) = post.
Proof. revert v. induction post as [|w post IH]; intros v; simpl; [auto|]. now rewrite IH. Qed.

Lemma zipnext_fst v post : map fst (zipnext v post) = removelast (v :: post).
Proof.
  revert v. induction post as [|w post IH]; intros v; [reflexivity|].
  cbn [zipnext map fst]. rewrite IH. reflexivity.
Qed.

Lemma dset_fresh k w (d : list (item * item)) : ~ In k (map fst d) -> set k w d = d ++ [(k, w)].
Proof.
  induction d as [|[a b] d IH]; simpl; [auto|]. intros H.
  rewrite item_eqb_neq by intuition. rewrite IH by tauto. reflexivity.
Qed.

Lemma shift_map_spec r : forall post pre v d,
  rep r (pre ++ v :: post) ->
  (forall x, In x (v :: post) -> ~ In x (map fst d)) ->
  shift_map r (zn (List.length pre)) (List.length post) d = Ok (d ++ zipnext v post).
Proof.
  induction post as [|w post IH]; intros pre v d R Hd.
  - simpl. now rewrite app_nil_r.
  - cbn [List.length shift_map].
    rewrite !(at_spec r _ _ R).
    rewrite spec_nth_nat, nth_error_app2, Nat.sub_diag by lia. cbn [nth_error bind].
    replace (zn (List.length pre) + 1) with (zn (List.length (pre ++ [v])))
      by (rewrite app_length; simpl; lia).
    rewrite spec_nth_nat.
    replace (pre ++ v :: w :: post) with ((pre ++ [v]) ++ w :: post) in * by (now rewrite <- app_assoc).
    rewrite nth_error_app2, Nat.sub_diag by lia. cbn [nth_error bind].
    rewrite IH with (v := w).
    + rewrite dset_fresh by (apply Hd; now left). now rewrite <- app_assoc.
    + exact R.
    + intros x Hx. rewrite dset_fresh by (apply Hd; now left).
      rewrite map_app, in_app_iff. simpl. intros [Hc|[<-|[]]].
      * apply (Hd x); [now right|auto].
      * pose proof (rep_nodup _ _ R) as Hn. rewrite <- app_assoc in Hn. simpl in Hn.
        apply NoDup_remove_2 in Hn. apply Hn. apply in_or_app. right. exact Hx.
Qed.

Lemma removelast_In {A} (x : A) l : In x (removelast l) -> In x l.
Proof.
  induction l as [|a l IH]; simpl; [tauto|]. destruct l as [|b l]; [simpl; tauto|].
  intros [<-|H]; [now left|]. right. auto.
Qed.

Lemma last_not_in {A} (a : A) l d : NoDup (a :: l) -> ~ In (last (a :: l) d) (removelast (a :: l)).
Proof.
  intros Hn. assert (E : a :: l = removelast (a :: l) ++ [last (a :: l) d])
    by (apply app_removelast_last; discriminate).
  rewrite E in Hn. apply NoDup_remove_2 in Hn. rewrite app_nil_r in Hn. exact Hn.
Qed.

Lemma map_subst_zipnext v post : NoDup (v :: post) ->
  map (subst (zipnext v post)) (removelast (v :: post)) = post.
Proof.
  intros Hn. revert v Hn. induction post as [|w post IH]; intros v Hn; [reflexivity|].
  change (removelast (v :: w :: post)) with (v :: removelast (w :: post)).
  cbn [zipnext map]. rewrite subst_cons, item_eqb_refl. f_equal.
  inversion Hn as [|? ? H1 H2]; subst. transitivity (map (subst (zipnext w post)) (removelast (w :: post))); [|auto].
  apply map_ext_in. intros x Hx. rewrite subst_cons. rewrite item_eqb_neq; [auto|].
  intros ->. apply H1. now apply removelast_In.
Qed.

Lemma filter_split v pre post :
  NoDup (pre ++ v :: post) ->
  filter (fun x => negb (item_eqb v x)) (pre ++ v :: post) = pre ++ post.
Proof.
  intros Hn. rewrite filter_app. simpl. rewrite item_eqb_refl. simpl.
  apply NoDup_remove_2 in Hn.
  assert (Hf : forall l, ~ In v l -> filter (fun x => negb (item_eqb v x)) l = l).
  { induction l as [|a l IH]; simpl; [auto|]. intros H. rewrite item_eqb_neq by intuition.
    simpl. rewrite IH by tauto. reflexivity. }
  rewrite !Hf; [reflexivity| |]; intros H; apply Hn; apply in_or_app; auto.
Qed.

Lemma spec_check_pass l keys news :
  (forall v, In v news -> ask_exn v = None) ->
  (forall v, In v news -> In v l -> In v keys) -> spec_check l keys news = Ok tt.
Proof.
  induction news as [|w ws IH]; intros Ha Hk; simpl; [reflexivity|].
  unfold spec_contains. rewrite Ha by now left. simpl.
  destruct (inb w l) eqn:E; simpl.
  - apply inb_In in E. apply Hk in E; [|now left]. apply inb_In in E. rewrite E. simpl.
    apply IH; intros; [apply Ha|apply Hk]; auto; now right.
  - apply IH; intros; [apply Ha|apply Hk]; auto; now right.
Qed.

Lemma remove_spec r l v : rep r l -> wf l ->
  rep (fst (remove numeq r v)) (fst (spec_remove l v)) /\
  snd (remove numeq r v) = snd (spec_remove l v).
Proof.
  intros R W. unfold remove, spec_remove.
  pose proof (index_spec r l v false R) as [_ Hi]. rewrite Hi.
  unfold spec_index. cbn [snd]. destruct (ask_exn v) eqn:Ea; [simpl; auto|].
  destruct (inb v l) eqn:E.
  2:{ apply inb_false in E. apply position_None in E. rewrite E. simpl; auto. }
  apply inb_In in E. destruct (position_In v l E) as (i & Ep & Hn). rewrite Ep.
  destruct (nth_error_split _ _ Hn) as (pre & post & El & Hlen). subst l i.
  rewrite (rep_stop _ _ R), app_length. simpl List.length.
  replace (Z.to_nat (zn (List.length pre + S (List.length post)) - 1 - zn (List.length pre)))
    with (List.length post) by lia.
  rewrite (shift_map_spec r post pre v []) by (auto; intros x _ []).
  simpl app at 1.
  pose proof (rep_nodup _ _ R) as Hnd.
  assert (Hnd2 : NoDup (v :: post)).
  { clear - Hnd. induction pre; simpl in *; [auto|]. inversion Hnd; auto. }
  assert (El : pre ++ v :: post = (pre ++ removelast (v :: post)) ++ [last (v :: post) v]).
  { rewrite <- app_assoc. f_equal. apply app_removelast_last. discriminate. }
  pose proof R as R0. rewrite El in R0. apply pop_snoc in R0. destruct R0 as [R1 E1].
  destruct (pop r) as [r' o]. cbn [fst snd] in R1, E1. subst o.
  assert (Hkin : forall k, In k (map fst (zipnext v post)) -> In k (pre ++ removelast (v :: post))).
  { intros k. rewrite zipnext_fst. intros Hk. apply in_or_app. auto. }
  assert (Hknd : NoDup (map fst (zipnext v post))).
  { rewrite zipnext_fst. rewrite (app_removelast_last v) in Hnd2 by discriminate.
    apply NoDup_remove_1 in Hnd2. now rewrite app_nil_r in Hnd2. }
  destruct (relabel_spec r' _ (zipnext v post) R1 Hknd Hkin) as [R2 E2].
  assert (Hsr : spec_relabel (pre ++ removelast (v :: post)) (zipnext v post)
                = (pre ++ post, Ok tt)).
  { unfold spec_relabel.
    assert (Hh : forallb (fun p => hashable (snd p)) (zipnext v post) = true).
    { apply forallb_forall. intros p Hp. apply (rep_hash _ _ R). apply in_or_app. right. right.
      rewrite <- (zipnext_snd v post). now apply in_map. }
    rewrite Hh. simpl negb. cbv iota. rewrite zipnext_snd, zipnext_fst.
    inversion Hnd2 as [|? ? Hv Hpost]; subst.
    assert (Hb : nodupb post = true) by now apply nodupb_spec.
    rewrite Hb. simpl negb. cbv iota.
    rewrite spec_check_pass.
    - f_equal. rewrite map_app, map_subst_zipnext by auto. f_equal.
      rewrite <- (map_id pre) at 2. apply map_ext_in. intros x Hx. apply subst_notin.
      rewrite zipnext_fst. intros Hc. apply removelast_In in Hc.
      clear - Hnd Hx Hc. induction pre as [|a pre IH]; [destruct Hx|]. simpl in Hnd.
      inversion Hnd as [|? ? H1 H2]; subst. destruct Hx as [<-|Hx]; [|auto].
      apply H1. apply in_or_app. auto.
    - intros u Hu. apply (wf_ask _ W). apply in_or_app. right. now right.
    - intros u Hu Hl. apply in_app_or in Hl. destruct Hl as [Hl|Hl]; [|auto].
      exfalso. clear - Hnd Hu Hl. induction pre as [|a pre IH]; [destruct Hl|]. simpl in Hnd.
      inversion Hnd as [|? ? H1 H2]; subst. destruct Hl as [<-|Hl]; [|auto].
      apply H1. apply in_or_app. right. now right. }
  rewrite Hsr in R2, E2. simpl in R2, E2. rewrite filter_split by auto. simpl. auto.
Qed.

(** ** Relabelling as integers *)
Lemma rep_range n : rep (mkReg [] [] n) (map (fun i => IInt (zn i)) (seq 0 n)).
Proof.
  assert (Hn : forall i v, nth_error (map (fun i => IInt (zn i)) (seq 0 n)) i = Some v ->
     v = IInt (zn i) /\ (i < n)%nat).
  { intros i v H. pose proof (nth_lt _ _ _ H) as Hl. rewrite map_length, seq_length in Hl.
    apply nth_map_inv in H. destruct H as (j & Hj & ->).
    apply nth_error_nth with (d := 0%nat) in Hj. rewrite seq_nth in Hj by auto. simpl in Hj. subst j.
    auto. }
  constructor; simpl; try constructor.
  - now rewrite map_length, seq_length.
  - apply seq_ints_nodup.
  - intros i v H. apply Hn in H. destruct H as [-> _]. now rewrite item_eqb_refl.
  - discriminate.
  - discriminate.
  - intros (i & H & _ & Hc). apply Hn in H. destruct H as [-> _]. congruence.
  - intros v Hv. apply in_map_iff in Hv. destruct Hv as (k & <- & _). reflexivity.
Qed.

Lemma relabel_ints_spec r l : rep r l ->
  rep (fst (relabel_as_integers r)) (map (fun i => IInt (zn i)) (seq 0 (List.length l))).
Proof. intros R. unfold relabel_as_integers. simpl. rewrite (rep_stop _ _ R). apply rep_range. Qed.

Lemma relabel_ints_restore r l : rep r l -> wf l ->
  let (r1, m) := relabel_as_integers r in
  exists r2, relabel numeq r1 m = (r2, Ok tt) /\ rep r2 l.
Proof.
  intros R W. unfold relabel_as_integers.
  assert (R1 : rep (mkReg [] [] (stop r)) (map (fun i => IInt (zn i)) (seq 0 (List.length l)))).
  { rewrite (rep_stop _ _ R). apply rep_range. }
  assert (Hpair : forall k w, In (k, w) (i2l r) <->
     exists i, k = IInt (zn i) /\ nth_error l i = Some w /\ w <> IInt (zn i)).
  { intros k w. split.
    - intros H. apply (In_dget _ item_eqb_spec _ _ _ (rep_i2l_nd _ _ R)) in H as Hg.
      destruct (rep_i2l_out _ _ R _ _ Hg) as (i & -> & Hi). exists i. split; [auto|].
      destruct (lt_nth l i Hi) as (v & Hv). pose proof (rep_i2l _ _ R _ _ Hv) as E.
      rewrite Hg in E. destruct (item_eqb_spec v (IInt (zn i))); [discriminate|].
      injection E as ->. auto.
    - intros (i & -> & Hi & Hne). apply (dget_In _ item_eqb_spec).
      rewrite (rep_i2l _ _ R _ _ Hi). now rewrite item_eqb_neq. }
  assert (Hkin : forall k, In k (map fst (i2l r)) ->
     In k (map (fun i => IInt (zn i)) (seq 0 (List.length l)))).
  { intros k Hk. apply in_map_iff in Hk. destruct Hk as ((k' & w) & E & Hk). simpl in E. subst k'.
    apply Hpair in Hk. destruct Hk as (i & -> & Hi & _). apply in_map_iff. exists i. split; [auto|].
    apply in_seq. apply nth_lt in Hi. lia. }
  destruct (relabel_spec _ _ (i2l r) R1 (rep_i2l_nd _ _ R) Hkin) as [R2 E2].
  assert (Hvals : forall w, In w (map snd (i2l r)) -> In w l).
  { intros w Hw. apply in_map_iff in Hw. destruct Hw as ((k & w') & E & Hk). simpl in E. subst w'.
    apply Hpair in Hk. destruct Hk as (i & _ & Hi & _). eapply nth_error_In; eauto. }
  assert (Hsr : spec_relabel (map (fun i => IInt (zn i)) (seq 0 (List.length l))) (i2l r) = (l, Ok tt)).
  { unfold spec_relabel.
    assert (Hh : forallb (fun p => hashable (snd p)) (i2l r) = true).
    { apply forallb_forall. intros p Hp. apply (rep_hash _ _ R). apply Hvals. now apply in_map. }
    rewrite Hh. simpl negb. cbv iota.
    assert (Hb : nodupb (map snd (i2l r)) = true).
    { apply nodupb_spec. pose proof (rep_i2l_nd _ _ R) as Hnd.
      assert (Hinj : forall k k' w, In (k, w) (i2l r) -> In (k', w) (i2l r) -> k = k').
      { intros k k' w H1 H2. apply Hpair in H1. apply Hpair in H2.
        destruct H1 as (i & -> & Hi & _). destruct H2 as (j & -> & Hj & _).
        now rewrite (nth_unique _ _ _ _ (rep_nodup _ _ R) Hi Hj). }
      clear - Hnd Hinj. induction (i2l r) as [|[k w] d IH]; simpl; [constructor|].
      simpl in Hnd. inversion Hnd as [|? ? H1 H2]; subst. constructor.
      - intros H. apply in_map_iff in H. destruct H as ((k' & w') & E & H). simpl in E. subst w'.
        apply H1. apply in_map_iff. exists (k', w). split; [|auto]. simpl.
        symmetry. apply (Hinj k k' w); [now left|now right].
      - apply IH; [auto|]. intros a b c Ha Hb'. apply (Hinj a b c); now right. }
    rewrite Hb. simpl negb. cbv iota.
    rewrite spec_check_pass.
    - f_equal. rewrite map_map. rewrite <- (map_nth_seq l INone) at 2. apply map_ext_in.
      intros i Hi. apply in_seq in Hi. destruct (lt_nth l i) as (v & Hv); [lia|].
      apply nth_error_nth with (d := INone) in Hv as Hv'. rewrite Hv'.
      unfold subst. exact (get_i2l r l i v R Hv).
    - intros v Hv. apply (wf_ask _ W). auto.
    - intros v Hv Hl. apply in_map_iff in Hl. destruct Hl as (j & <- & Hj).
      apply in_map_iff in Hv. destruct Hv as ((k & w) & E & Hk). simpl in E. subst w.
      apply Hpair in Hk. destruct Hk as (i & -> & Hi & Hne).
      apply in_seq in Hj. destruct (lt_nth l j) as (v & Hv); [lia|].
      apply in_map_iff. exists (IInt (zn j), v). split; [auto|]. apply Hpair. exists j.
      split; [auto|]. split; [auto|]. intros ->.
      apply Hne. now rewrite (nth_unique _ _ _ _ (rep_nodup _ _ R) Hi Hv). }
  rewrite Hsr in R2, E2. simpl in R2, E2.
  destruct (relabel numeq (mkReg [] [] (stop r)) (i2l r)) as [r2 o]. simpl in *. subst o. eauto.
Qed.

(** ** Histories *)
Definition key_ok (l : list item) (o : rop) : Prop :=
  match o with
  | RRelabel m => NoDup (map fst m) /\ (forall k, In k (map fst m) -> In k l)
  | _ => True
  end.

Lemma spec_step_wf l o : wf l -> NoDup l -> wf (fst (spec_step l o)).
Proof.
  intros W Hn. destruct o; simpl; auto.
  - pose proof (wf_append l v permissive W). destruct (spec_append l v permissive); auto.
  - pose proof (wf_extend vs permissive l W). destruct (spec_extend l vs permissive); auto.
  - unfold spec_pop. destruct (rev l) as [|v t] eqn:E; simpl; [auto|].
    apply (f_equal (@rev _)) in E. rewrite rev_involutive in E. simpl in E.
    apply (wf_sub l); [auto| |]; rewrite E.
    + intros x Hx. apply in_or_app; auto.
    + rewrite app_length. lia.
  - constructor; [intros v []|reflexivity].
  - unfold spec_remove. destruct (ask_exn v); [auto|]. destruct (inb v l); simpl; [|auto].
    apply (wf_sub l); [auto| |].
    + intros x Hx. apply filter_In in Hx. tauto.
    + clear. induction l as [|a l IH]; simpl; [lia|]. destruct (negb (item_eqb v a)); simpl; lia.
  - unfold spec_relabel. destruct (forallb _ m); simpl; [|auto].
    destruct (nodupb (map snd m)); simpl; [|auto].
    destruct (spec_check l (map fst m) (map snd m)) as [[]|e] eqn:E; simpl; [|auto].
    constructor.
    + intros v Hv. apply in_map_iff in Hv. destruct Hv as (u & <- & Hu). unfold subst.
      destruct (get u m) as [w|] eqn:Eg; [|now apply (wf_ask _ W)].
      apply (dget_In _ item_eqb_spec) in Eg.
      assert (Hw : In w (map snd m)) by (apply in_map_iff; exists (u, w); auto).
      clear - E Hw. induction (map snd m) as [|x xs IH]; [destruct Hw|]. simpl in E.
      unfold spec_contains in E. destruct (ask_exn x) eqn:Ex; simpl in E; [discriminate|].
      destruct (inb x l && negb (inb x (map fst m))); [discriminate|].
      destruct Hw as [<-|Hw]; auto.
    + rewrite map_length. apply (wf_len _ W).
  - constructor.
    + intros v Hv. apply in_map_iff in Hv. destruct Hv as (k & <- & Hk). apply in_seq in Hk.
      apply ask_nat. pose proof (wf_len _ W) as H. rewrite ssize_ok_iff in *. lia.
    + rewrite map_length, seq_length. apply (wf_len _ W).
  - unfold spec_index. destruct permissive.
    + pose proof (wf_append l v true W). destruct (spec_append l v true) as [l' [x|e]]; auto.
    + simpl. auto.
Qed.

Lemma step_refines r l o : rep r l -> wf l -> key_ok l o ->
  rep (fst (impl_step numeq r o)) (fst (spec_step l o)) /\
  snd (impl_step numeq r o) = snd (spec_step l o).
Proof.
  intros R W K. destruct o; simpl.
  - destruct (append_spec r l v permissive R) as [H1 H2].
    destruct (append numeq r v permissive), (spec_append l v permissive). simpl in *. subst. auto.
  - destruct (extend_spec vs permissive r l R) as [H1 H2].
    destruct (extend numeq r vs permissive), (spec_extend l vs permissive). simpl in *. subst. auto.
  - destruct (pop_spec r l R) as [H1 H2]. destruct (pop r), (spec_pop l). simpl in *. subst. auto.
  - split; [apply rep_empty|reflexivity].
  - split; [|reflexivity]. destruct r; exact R.
  - destruct (remove_spec r l v R W) as [H1 H2].
    destruct (remove numeq r v), (spec_remove l v). simpl in *. subst. auto.
  - destruct K as [K1 K2]. destruct (relabel_spec r l m R K1 K2) as [H1 H2].
    destruct (relabel numeq r m), (spec_relabel l m). simpl in *. subst. auto.
  - split; [|reflexivity]. apply (relabel_ints_spec r l R).
  - rewrite (rep_stop _ _ R). auto.
  - rewrite (items_spec r l R). auto.
  - rewrite (count_spec r l v R). auto.
  - rewrite (getitem_spec r l i R). auto.
  - destruct (index_spec r l v permissive R) as [H1 H2].
    destruct (index numeq r v permissive), (spec_index l v permissive). simpl in *. subst. auto.
Qed.

Lemma run_refines os : forall r l, rep r l -> wf l -> keys_known l os ->
  rep (fst (impl_run numeq r os)) (fst (spec_run l os)) /\ wf (fst (spec_run l os)) /\
  snd (impl_run numeq r os) = snd (spec_run l os).
Proof.
  induction os as [|o os IH]; intros r l R W K; simpl; [auto|].
  simpl in K. destruct K as [K1 K2].
  destruct (step_refines r l o R W K1) as [H1 H2].
  pose proof (spec_step_wf l o W (rep_nodup _ _ R)) as W1.
  destruct (impl_step numeq r o) as [r1 x]. destruct (spec_step l o) as [l1 y].
  simpl in *. subst y. specialize (IH r1 l1 H1 W1 K2).
  destruct (impl_run numeq r1 os), (spec_run l1 os). simpl in *.
  destruct IH as (A & B & C). subst. auto.
Qed.

Lemma wf_nil : wf [].
Proof. constructor; [intros v []|reflexivity]. Qed.

End PyEq.

(** Proofs about comparing and combining registers. *)
From Coq Require Import List ZArith Bool Arith Lia Permutation.
From Verif Require Import Py RegisterModel RegisterSpec RegisterProofs RegisterProofs2 SetModel.
Import ListNotations.

Section Plain.
Variable numeq : item -> Z -> bool.
Hypothesis Hp : plain numeq.

Lemma count_member r l v : rep r l -> ask_exn v = None -> count r v = Ok (inb v l).
Proof. intros R H. rewrite (count_spec r l v R). unfold spec_contains. now rewrite H. Qed.

Lemma all_in_spec r l vs : rep r l -> (forall v, In v vs -> ask_exn v = None) ->
  all_in r vs = Ok (forallb (fun v => inb v l) vs).
Proof.
  intros R. induction vs as [|v vs IH]; intros H; [reflexivity|]. cbn [all_in forallb].
  rewrite (count_member r l v R) by (apply H; now left). cbn [bind].
  destruct (inb v l); cbn [andb]; [apply IH; intros; apply H; now right|reflexivity].
Qed.

Lemma none_in_spec r l vs : rep r l -> (forall v, In v vs -> ask_exn v = None) ->
  none_in r vs = Ok (forallb (fun v => negb (inb v l)) vs).
Proof.
  intros R. induction vs as [|v vs IH]; intros H; [reflexivity|]. cbn [none_in forallb].
  rewrite (count_member r l v R) by (apply H; now left). cbn [bind].
  destruct (inb v l); cbn [andb negb]; [reflexivity|apply IH; intros; apply H; now right].
Qed.

Lemma keep_in_spec k r l vs : rep r l -> (forall v, In v vs -> ask_exn v = None) ->
  keep_in k r vs = Ok (filter (fun v => Bool.eqb (inb v l) k) vs).
Proof.
  intros R. induction vs as [|v vs IH]; intros H; [reflexivity|]. cbn [keep_in filter].
  rewrite (count_member r l v R) by (apply H; now left). cbn [bind].
  rewrite IH by (intros; apply H; now right). reflexivity.
Qed.

Lemma forallb_incl l vs : forallb (fun v => inb v l) vs = true <-> incl vs l.
Proof.
  rewrite forallb_forall. unfold incl. split; intros H v Hv; [apply inb_In|apply inb_In]; auto.
Qed.

Lemma set_le_iff a b la lb : reachable numeq (core a) -> reachable numeq (core b) ->
  items (core a) = Ok la -> items (core b) = Ok lb ->
  exists x, set_le a b = Ok x /\ (x = true <-> incl la lb).
Proof.
  intros Ha Hb Ia Ib. destruct (reachable_items _ Hp _ _ Ha Ia) as [Ra Wa]. destruct (reachable_items _ Hp _ _ Hb Ib) as [Rb Wb].
  unfold set_le. rewrite (rep_stop _ _ Ra), (rep_stop _ _ Rb), Ia. cbn [bind].
  rewrite (all_in_spec _ lb la Rb) by (apply (wf_ask _ Wa)).
  destruct (Nat.ltb_spec (List.length lb) (List.length la)) as [Hlt|Hge].
  - exists false. split; [reflexivity|]. split; [discriminate|]. intros Hi. exfalso.
    pose proof (NoDup_incl_length (rep_nodup _ _ Ra) Hi). lia.
  - eexists. split; [reflexivity|]. apply forallb_incl.
Qed.

Lemma set_compare a b la lb : reachable numeq (core a) -> reachable numeq (core b) ->
  items (core a) = Ok la -> items (core b) = Ok lb ->
  (exists x, set_eq a b = Ok x /\ (x = true <-> Permutation la lb)) /\
  (exists x, set_le a b = Ok x /\ (x = true <-> incl la lb)) /\
  (exists x, set_lt a b = Ok x /\ (x = true <-> incl la lb /\ ~ incl lb la)) /\
  (exists x, set_disjoint a b = Ok x /\ (x = true <-> forall v, In v la -> ~ In v lb)).
Proof.
  intros Ha Hb Ia Ib. destruct (reachable_items _ Hp _ _ Ha Ia) as [Ra Wa]. destruct (reachable_items _ Hp _ _ Hb Ib) as [Rb Wb].
  destruct (set_le_iff a b la lb Ha Hb Ia Ib) as (x & E & Hx).
  pose proof (rep_nodup _ _ Ra) as Na. pose proof (rep_nodup _ _ Rb) as Nb.
  split; [|split; [|split]].
  - unfold set_eq. rewrite (rep_stop _ _ Ra), (rep_stop _ _ Rb). destruct (Nat.eqb_spec (List.length la) (List.length lb)) as [El|El].
    + exists x. split; [exact E|]. rewrite Hx. split.
      * intros Hi. apply NoDup_Permutation_bis; auto. lia.
      * intros HP v Hv. eapply Permutation_in; eauto.
    + exists false. split; [reflexivity|]. split; [discriminate|]. intros HP. apply Permutation_length in HP. lia.
  - now exists x.
  - unfold set_lt. rewrite (rep_stop _ _ Ra), (rep_stop _ _ Rb). destruct (Nat.ltb_spec (List.length la) (List.length lb)) as [El|El].
    + exists x. split; [exact E|]. rewrite Hx. split; [|tauto]. intros Hi. split; [exact Hi|].
      intros Hj. pose proof (NoDup_incl_length Nb Hj). lia.
    + exists false. split; [reflexivity|]. split; [discriminate|]. intros [Hi Hj]. exfalso. apply Hj.
      apply NoDup_length_incl; auto.
  - unfold set_disjoint. rewrite Ib. cbn [bind]. rewrite (none_in_spec _ la lb Ra) by (apply (wf_ask _ Wb)).
    eexists. split; [reflexivity|]. rewrite forallb_forall. split.
    + intros H v Hv Hv'. specialize (H v Hv'). apply inb_In in Hv. rewrite Hv in H. discriminate.
    + intros H v Hv. destruct (inb v la) eqn:Ei; [|reflexivity]. exfalso. apply inb_In in Ei. now apply (H v).
Qed.

Lemma nodup_filter {A} (f : A -> bool) l : NoDup l -> NoDup (filter f l).
Proof.
  induction 1 as [|x l Hx Hl IH]; cbn [filter]; [constructor|]. destruct (f x); [|exact IH].
  constructor; [|exact IH]. rewrite filter_In. tauto.
Qed.
Lemma filter_len {A} (f : A -> bool) l : (List.length (filter f l) <= List.length l)%nat.
Proof. induction l as [|x l IH]; cbn [filter List.length]; [lia|]. destruct (f x); cbn [List.length]; lia. Qed.

(** Building a register from storable items keeps the first of each. *)
Lemma spec_extend_perm l vs : Forall storable vs -> NoDup vs ->
  ssize_ok (zn (List.length l + List.length vs)) = true ->
  spec_extend l vs true = (l ++ filter (fun v => negb (inb v l)) vs, Ok tt).
Proof.
  revert l. induction vs as [|v vs IH]; intros l Hs Hv Hz.
  - cbn. now rewrite app_nil_r.
  - inversion Hs as [|? ? Sv Svs]; subst. inversion Hv as [|? ? Nv Nvs]; subst. cbn [spec_extend filter].
    cbn [List.length] in Hz.
    destruct (inb v l) eqn:Ei; cbn [negb].
    + assert (E : spec_append l v true = (l, Ok v)).
      { destruct Sv as (H1 & H2 & H3). assert (E : spec_contains l v = Ok true) by (unfold spec_contains; now rewrite H3, Ei).
        destruct v; try congruence; unfold spec_append; rewrite E; reflexivity. }
      rewrite E. apply IH; auto. rewrite ssize_ok_iff in *. lia.
    + apply inb_false in Ei. rewrite spec_append_storable; [|exact Sv|exact Ei|rewrite ssize_ok_iff in *; lia].
      rewrite IH; auto.
      * rewrite <- app_assoc. cbn [app]. do 3 f_equal. apply filter_ext_in. intros w Hw. f_equal.
        apply eq_true_iff_eq. rewrite !inb_In, in_app_iff. split; [intros [H|[H|[]]]; [exact H|subst; tauto]|tauto].
      * rewrite app_length. cbn [List.length]. rewrite ssize_ok_iff in *. lia.
Qed.

Lemma new_items vs l : spec_extend [] vs true = (l, Ok tt) ->
  exists r, new_register numeq vs = Ok r /\ items (core r) = Ok l /\ frozen r = Ok false /\ rep (core r) l /\ wf l.
Proof.
  intros E. pose proof (init_spec numeq Hp vs) as H. rewrite E in H. unfold new_register.
  destruct (init_list numeq vs) as [c|e]; [|discriminate]. destruct H as (R & W & _). cbn [fst] in R, W.
  exists (mkRegister c (Some false)). cbn [bind core]. split; [reflexivity|]. split; [now apply items_spec|]. split; [reflexivity|]. split; assumption.
Qed.

Lemma storable_sub l vs : Forall storable l -> incl vs l -> Forall storable vs.
Proof. rewrite !Forall_forall. auto. Qed.

Lemma rep_storable r l : rep r l -> wf l -> ~ In INone l -> Forall storable l.
Proof.
  intros R W N. apply Forall_forall. intros v Hv. split; [intros ->; auto|].
  split; [apply (rep_hash _ _ R); auto|apply (wf_ask _ W); auto].
Qed.

Lemma eqb_true_filter l vs : filter (fun v => Bool.eqb (inb v l) true) vs = filter (fun v => inb v l) vs.
Proof. apply filter_ext. intros v. now destruct (inb v l). Qed.
Lemma eqb_false_filter l vs : filter (fun v => Bool.eqb (inb v l) false) vs = filter (fun v => negb (inb v l)) vs.
Proof. apply filter_ext. intros v. now destruct (inb v l). Qed.

Lemma filter_all {A} (f : A -> bool) l : (forall x, In x l -> f x = true) -> filter f l = l.
Proof.
  induction l as [|x l IH]; intros H; [reflexivity|]. cbn [filter]. rewrite (H x) by now left.
  now rewrite IH by (intros; apply H; now right).
Qed.

Lemma extend_nil vs : Forall storable vs -> NoDup vs -> ssize_ok (zn (List.length vs)) = true ->
  spec_extend [] vs true = (vs, Ok tt).
Proof. intros. rewrite spec_extend_perm by auto. cbn [app]. rewrite filter_all; auto. Qed.

(** The constructor on a part of a register's items. *)
Lemma new_part l vs : Forall storable l -> NoDup l -> ssize_ok (zn (List.length l)) = true -> forall f, vs = filter f l ->
  exists r, new_register numeq vs = Ok r /\ items (core r) = Ok vs /\ frozen r = Ok false /\ rep (core r) vs /\ wf vs.
Proof.
  intros Hs Hn Hz f ->. apply new_items. apply extend_nil.
  - eapply storable_sub; [exact Hs|]. intros v Hv. apply filter_In in Hv. tauto.
  - now apply nodup_filter.
  - pose proof (filter_len f l). rewrite ssize_ok_iff in *. lia.
Qed.

Lemma or_items a b la lb : rep (core a) la -> rep (core b) lb -> wf la -> wf lb -> ~ In INone la -> ~ In INone lb ->
  ssize_ok (zn (List.length la + List.length lb)) = true ->
  exists r, set_or numeq a b = Ok r /\ items (core r) = Ok (la ++ filter (fun v => negb (inb v la)) lb) /\ frozen r = Ok false.
Proof.
  intros Ra Rb Wa Wb Na Nb Hz. unfold set_or. rewrite (items_spec _ _ Ra), (items_spec _ _ Rb). cbn [bind].
  destruct (new_items (la ++ lb) (la ++ filter (fun v => negb (inb v la)) lb)) as (r & E & I & F & _).
  - pose proof (extend_nil la (rep_storable _ _ Ra Wa Na) (rep_nodup _ _ Ra) (wf_len _ Wa)) as Ea.
    rewrite spec_extend_app by (now rewrite Ea). rewrite Ea. cbn [fst].
    apply spec_extend_perm; [now apply (rep_storable _ _ Rb)|apply (rep_nodup _ _ Rb)|exact Hz].
  - exists r. auto.
Qed.

Lemma sub_items a b la lb : rep (core a) la -> rep (core b) lb -> wf la -> ~ In INone la ->
  exists r, set_sub numeq a b = Ok r /\ items (core r) = Ok (filter (fun v => negb (inb v lb)) la) /\ frozen r = Ok false /\
    rep (core r) (filter (fun v => negb (inb v lb)) la) /\ wf (filter (fun v => negb (inb v lb)) la).
Proof.
  intros Ra Rb Wa Na. unfold set_sub. rewrite (items_spec _ _ Ra). cbn [bind].
  rewrite (keep_in_spec false _ lb la Rb) by (apply (wf_ask _ Wa)). cbn [bind]. rewrite eqb_false_filter.
  exact (new_part la _ (rep_storable _ _ Ra Wa Na) (rep_nodup _ _ Ra) (wf_len _ Wa) (fun v => negb (inb v lb)) eq_refl).
Qed.

Lemma set_algebra a b la lb : reachable numeq (core a) -> reachable numeq (core b) ->
  items (core a) = Ok la -> items (core b) = Ok lb -> ~ In INone la -> ~ In INone lb ->
  ssize_ok (zn (List.length la + List.length lb)) = true ->
  (exists r, set_and numeq a b = Ok r /\ items (core r) = Ok (filter (fun v => inb v la) lb) /\ frozen r = Ok false) /\
  (exists r, set_sub numeq a b = Ok r /\ items (core r) = Ok (filter (fun v => negb (inb v lb)) la) /\ frozen r = Ok false) /\
  (exists r, set_or numeq a b = Ok r /\ items (core r) = Ok (la ++ filter (fun v => negb (inb v la)) lb) /\ frozen r = Ok false) /\
  (exists r, set_xor numeq a b = Ok r /\
     items (core r) = Ok (filter (fun v => negb (inb v lb)) la ++ filter (fun v => negb (inb v la)) lb) /\ frozen r = Ok false).
Proof.
  intros Ha Hb Ia Ib Na Nb Hz.
  destruct (reachable_items _ Hp _ _ Ha Ia) as [Ra Wa]. destruct (reachable_items _ Hp _ _ Hb Ib) as [Rb Wb].
  split; [|split; [|split]].
  - unfold set_and. rewrite Ib. cbn [bind]. rewrite (keep_in_spec true _ la lb Ra) by (apply (wf_ask _ Wb)). cbn [bind].
    rewrite eqb_true_filter.
    destruct (new_part lb _ (rep_storable _ _ Rb Wb Nb) (rep_nodup _ _ Rb) (wf_len _ Wb) (fun v => inb v la) eq_refl)
      as (r & E & I & F & _). now exists r.
  - destruct (sub_items a b la lb Ra Rb Wa Na) as (r & E & I & F & _). now exists r.
  - now apply or_items.
  - unfold set_xor. destruct (sub_items a b la lb Ra Rb Wa Na) as (x & Ex & Ix & Fx & Rx & Wx).
    destruct (sub_items b a lb la Rb Ra Wb Nb) as (y & Ey & Iy & Fy & Ry & Wy).
    rewrite Ex. cbn [bind]. rewrite Ey. cbn [bind].
    destruct (or_items x y _ _ Rx Ry Wx Wy) as (r & E & I & F).
    + rewrite filter_In. tauto.
    + rewrite filter_In. tauto.
    + pose proof (filter_len (fun v => negb (inb v lb)) la). pose proof (filter_len (fun v => negb (inb v la)) lb).
      rewrite ssize_ok_iff in *. lia.
    + exists r. split; [exact E|]. split; [|exact F]. rewrite I. do 2 f_equal. apply filter_all.
      intros v Hv. apply negb_true_iff, inb_false. rewrite filter_In in *. destruct Hv as [H1 H2].
      intros [H3 H4]. apply negb_true_iff, inb_false in H4. tauto.
Qed.
End Plain.

From Coq Require Import List ZArith Bool Arith Lia String DecimalString DecimalNat.
From Verif Require Import Py RegisterModel RegisterSpec RegisterProofs.
Import ListNotations.
Local Open Scope Z_scope.

Section Plain.
Variable numeq : item -> Z -> bool.
Hypothesis Hp : plain numeq.

Lemma init_spec vs :
  match init_list numeq vs with
  | Ok r => rep r (fst (spec_extend [] vs true)) /\ wf (fst (spec_extend [] vs true))
            /\ snd (spec_extend [] vs true) = Ok tt
  | Err e => snd (spec_extend [] vs true) = Err e
  end.
Proof.
  unfold init_list. destruct (extend_spec numeq Hp vs true empty_reg [] rep_empty) as [H1 H2].
  pose proof (wf_extend vs true [] wf_nil) as W.
  destruct (extend numeq empty_reg vs true) as [r [[]|e]]; simpl in *; auto.
Qed.

Lemma reachable_rep r : reachable numeq r -> exists l, rep r l /\ wf l.
Proof.
  intros (vs & r0 & os & E & K & <-). pose proof (init_spec vs) as H. rewrite E in H.
  destruct H as (R & W & _). exists (fst (spec_run (fst (spec_extend [] vs true)) os)).
  destruct (run_refines numeq Hp os r0 _ R W K) as (A & B & _). auto.
Qed.

Lemma rep_inj r l l' : rep r l -> rep r l' -> l = l'.
Proof.
  intros R R'. pose proof (items_spec r l R) as H. rewrite (items_spec r l' R') in H. congruence.
Qed.

Lemma reachable_items r l : reachable numeq r -> items r = Ok l -> rep r l /\ wf l.
Proof.
  intros H E. destruct (reachable_rep r H) as (l' & R & W). rewrite (items_spec _ _ R) in E.
  injection E as <-. auto.
Qed.

Lemma reachable_items_ex r : reachable numeq r -> exists l, items r = Ok l.
Proof. intros H. destruct (reachable_rep r H) as (l & R & _). exists l. now apply items_spec. Qed.

Lemma C01_main vs os :
  match init_list numeq vs with
  | Ok r0 =>
      let l0 := fst (spec_extend [] vs true) in
      snd (spec_extend [] vs true) = Ok tt /\
      (keys_known l0 os ->
       snd (impl_run numeq r0 os) = snd (spec_run l0 os) /\
       items (fst (impl_run numeq r0 os)) = Ok (fst (spec_run l0 os)) /\
       NoDup (fst (spec_run l0 os)))
  | Err e => snd (spec_extend [] vs true) = Err e
  end.
Proof.
  pose proof (init_spec vs) as H. destruct (init_list numeq vs) as [r0|e]; [|exact H].
  destruct H as (R & W & E). split; [exact E|]. intros K.
  destruct (run_refines numeq Hp os r0 _ R W K) as (A & B & C).
  split; [exact C|]. split; [now apply items_spec|]. apply (rep_nodup _ _ A).
Qed.

Lemma C01_range_main n os :
  ssize_ok (zn n) = true ->
  let l0 := map (fun i => IInt (zn i)) (seq 0 n) in
  keys_known l0 os ->
  snd (impl_run numeq (init_range n) os) = snd (spec_run l0 os) /\
  items (fst (impl_run numeq (init_range n) os)) = Ok (fst (spec_run l0 os)) /\
  NoDup (fst (spec_run l0 os)).
Proof.
  intros Hn l0 K. assert (W : wf l0).
  { constructor.
    - intros v Hv. apply in_map_iff in Hv. destruct Hv as (k & <- & Hk). apply in_seq in Hk.
      apply ask_nat. rewrite ssize_ok_iff in *. lia.
    - unfold l0. now rewrite map_length, seq_length. }
  destruct (run_refines numeq Hp os (init_range n) l0 (rep_range n) W K) as (A & B & C).
  split; [exact C|]. split; [now apply items_spec|]. apply (rep_nodup _ _ A).
Qed.

Lemma spec_nth_range l i v : spec_nth l i = Ok v ->
  exists j, nth_error l j = Some v /\ (0 <= i -> i = zn j) /\ (i < 0 -> i = zn j - zn (List.length l)).
Proof.
  unfold spec_nth. destruct (Z.ltb_spec i 0).
  - destruct (Z.leb_spec 0 (zn (List.length l) + i)); [|discriminate].
    destruct (nth_error l _) as [w|] eqn:E; [|discriminate]. intros [= <-].
    eexists. split; [exact E|]. split; lia.
  - destruct (Z.leb_spec 0 i); [|discriminate].
    destruct (nth_error l _) as [w|] eqn:E; [|discriminate]. intros [= <-].
    eexists. split; [exact E|]. split; lia.
Qed.

Lemma C02_main r : reachable numeq r ->
  (forall i v, getitem r i = Ok v ->
     index numeq r v false = (r, Ok (if i <? 0 then i + zn (stop r) else i))) /\
  (forall v i, snd (index numeq r v false) = Ok i -> getitem r i = Ok v /\ 0 <= i < zn (stop r)) /\
  (forall v, ask_exn v = None -> count r v = Ok false -> index numeq r v false = (r, Err ValueError)) /\
  (forall i, ssize_ok i = true -> ~ (- zn (stop r) <= i < zn (stop r)) -> getitem r i = Err IndexError) /\
  (forall i, - zn (stop r) <= i < zn (stop r) -> exists v, getitem r i = Ok v).
Proof.
  intros H. destruct (reachable_rep r H) as (l & R & W).
  assert (Hix : forall v, index numeq r v false = (r, snd (spec_index l v false))).
  { intros v. destruct (index_spec numeq Hp r l v false R) as [_ H2].
    rewrite <- H2. unfold index. reflexivity. }
  pose proof (rep_stop _ _ R) as Es. rewrite Es.
  pose proof (wf_len _ W) as Hlen. rewrite ssize_ok_iff in Hlen.
  repeat split.
  - intros i v Hg. rewrite (getitem_spec r l i R) in Hg. unfold spec_at in Hg.
    destruct (ssize_ok i) eqn:Ei; [|discriminate].
    apply spec_nth_range in Hg. destruct Hg as (j & Hj & H0 & H1).
    rewrite Hix. f_equal. unfold spec_index. cbn [snd].
    rewrite (wf_ask _ W) by (eapply nth_error_In; eauto).
    destruct (position_In v l) as (k & Ek & Hk); [eapply nth_error_In; eauto|]. rewrite Ek.
    rewrite (nth_unique _ _ _ _ (rep_nodup _ _ R) Hk Hj). f_equal.
    destruct (Z.ltb_spec i 0); lia.
  - rename H0 into Hi. rewrite Hix in Hi. unfold spec_index in Hi. cbn [snd] in Hi.
    destruct (ask_exn v) eqn:Ea; [discriminate|].
    destruct (position v l) as [j|] eqn:Ej; [|discriminate]. injection Hi as <-.
    apply position_spec in Ej. rewrite (getitem_spec r l _ R). unfold spec_at.
    pose proof (nth_lt _ _ _ Ej) as Hl.
    assert (E : ssize_ok (zn j) = true) by (apply ssize_ok_iff; lia). rewrite E.
    rewrite spec_nth_nat, Ej. reflexivity.
  - rewrite Hix in H0. unfold spec_index in H0. cbn [snd] in H0.
    destruct (ask_exn v) eqn:Ea; [discriminate|].
    destruct (position v l) as [j|] eqn:Ej; [|discriminate]. injection H0 as <-. lia.
  - rewrite Hix in H0. unfold spec_index in H0. cbn [snd] in H0.
    destruct (ask_exn v) eqn:Ea; [discriminate|].
    destruct (position v l) as [j|] eqn:Ej; [|discriminate]. injection H0 as <-.
    apply position_spec in Ej. apply nth_lt in Ej. lia.
  - intros v Ha Hc. rewrite (count_spec r l v R) in Hc. unfold spec_contains in Hc.
    rewrite Ha in Hc. injection Hc as Hc. apply inb_false in Hc. apply position_None in Hc.
    rewrite Hix. unfold spec_index. cbn [snd]. rewrite Ha, Hc. reflexivity.
  - intros i Hs Hi. rewrite (getitem_spec r l _ R). unfold spec_at. rewrite Hs. unfold spec_nth.
    destruct (Z.ltb_spec i 0).
    + destruct (Z.leb_spec 0 (zn (List.length l) + i)); [lia|reflexivity].
    + destruct (Z.leb_spec 0 i); [|reflexivity].
      destruct (nth_error l (Z.to_nat i)) eqn:E; [|reflexivity]. apply nth_lt in E. lia.
  - intros i Hi. rewrite (getitem_spec r l _ R). unfold spec_at.
    assert (E : ssize_ok i = true) by (apply ssize_ok_iff; lia). rewrite E. unfold spec_nth.
    destruct (Z.ltb_spec i 0).
    + destruct (Z.leb_spec 0 (zn (List.length l) + i)); [|lia].
      destruct (lt_nth l (Z.to_nat (zn (List.length l) + i))) as (v & ->); [lia|eauto].
    + destruct (Z.leb_spec 0 i); [|lia].
      destruct (lt_nth l (Z.to_nat i)) as (v & ->); [lia|eauto].
Qed.

(** ** Adding *)
Lemma spec_append_storable l v p : storable v -> ~ In v l ->
  ssize_ok (zn (List.length l) + 1) = true -> spec_append l v p = (l ++ [v], Ok v).
Proof.
  intros (H1 & H2 & H3) Hn Hs.
  assert (E : spec_contains l v = Ok false).
  { unfold spec_contains. rewrite H3. apply inb_false in Hn. now rewrite Hn. }
  assert (Ep : spec_push l v = (l ++ [v], Ok v)).
  { unfold spec_push. rewrite Hs, H2. reflexivity. }
  destruct v; try congruence; unfold spec_append; rewrite E; auto.
Qed.

Lemma spec_append_dup l v : storable v -> In v l ->
  spec_append l v false = (l, Err ValueError).
Proof.
  intros (H1 & H2 & H3) Hn.
  assert (E : spec_contains l v = Ok true).
  { unfold spec_contains. rewrite H3. apply inb_In in Hn. now rewrite Hn. }
  destruct v; try congruence; unfold spec_append; rewrite E; auto.
Qed.

Lemma spec_extend_fresh vs p : forall l, Forall storable vs -> NoDup (l ++ vs) ->
  ssize_ok (zn (List.length l + List.length vs)) = true ->
  spec_extend l vs p = (l ++ vs, Ok tt).
Proof.
  induction vs as [|v vs IH]; intros l Hs Hn Hl.
  - simpl. now rewrite app_nil_r.
  - inversion Hs as [|? ? H1 H2]; subst. cbn [spec_extend].
    rewrite spec_append_storable; [|exact H1| |].
    + rewrite IH; [now rewrite <- app_assoc|exact H2|now rewrite <- app_assoc|].
      rewrite app_length. simpl in *. now replace (List.length l + 1 + List.length vs)%nat
        with (List.length l + S (List.length vs))%nat by lia.
    + apply NoDup_remove_2 in Hn. intros H. apply Hn. apply in_or_app; auto.
    + simpl in Hl. rewrite ssize_ok_iff in *. lia.
Qed.

Lemma spec_extend_app vs ws p : forall l, snd (spec_extend l vs p) = Ok tt ->
  spec_extend l (vs ++ ws) p = spec_extend (fst (spec_extend l vs p)) ws p.
Proof.
  induction vs as [|v vs IH]; intros l H; [reflexivity|]. cbn [app spec_extend] in *.
  destruct (spec_append l v p) as [l' [x|e]]; [auto|discriminate].
Qed.

Lemma spec_append_prefix l v p : exists ext, fst (spec_append l v p) = l ++ ext.
Proof.
  assert (H0 : exists ext, l = l ++ ext) by (exists []; now rewrite app_nil_r).
  assert (H1 : forall w, exists ext, fst (spec_push l w) = l ++ ext).
  { intros w. unfold spec_push. destruct (ssize_ok _); simpl; [|auto].
    destruct (hashable w); simpl; eauto. }
  assert (Hg : exists ext, fst (match spec_contains l v with
                   | Err e => (l, Err e)
                   | Ok true => (l, if p then Ok v else Err ValueError)
                   | Ok false => spec_push l v end) = l ++ ext).
  { destruct (spec_contains l v) as [[|]|e]; simpl; auto. }
  destruct v; try exact Hg. simpl. auto.
Qed.

Lemma spec_extend_prefix vs p : forall l, exists ext, fst (spec_extend l vs p) = l ++ ext.
Proof.
  induction vs as [|v vs IH]; intros l; simpl.
  - exists []. now rewrite app_nil_r.
  - destruct (spec_append_prefix l v p) as (e1 & H1).
    destruct (spec_append l v p) as [l' [x|e]]; simpl in *; subst l'.
    + destruct (IH (l ++ e1)) as (e2 & H2). exists (e1 ++ e2). now rewrite H2, app_assoc.
    + eauto.
Qed.

Lemma add_rep r l vs : rep (core r) l -> frozen r = Ok false ->
  exists r', add numeq r vs = (r', snd (spec_extend l vs false)) /\
    rep (core r') (fst (spec_extend l vs false)) /\ frozen_ r' = frozen_ r.
Proof.
  intros R F. unfold add. rewrite F.
  destruct (extend_spec numeq Hp vs false (core r) l R) as [H1 H2].
  destruct (extend numeq (core r) vs false) as [c o]. simpl in *. subst o.
  exists (mkRegister c (frozen_ r)). auto.
Qed.

Lemma C03_main r l vs : reachable numeq (core r) -> items (core r) = Ok l ->
  (frozen r = Ok true -> add numeq r vs = (r, Err RegisterError)) /\
  (frozen r = Ok false ->
     (exists ext, items (core (fst (add numeq r vs))) = Ok (l ++ ext) /\ NoDup (l ++ ext)) /\
     (Forall storable vs -> ssize_ok (zn (List.length l + List.length vs)) = true ->
      (NoDup (l ++ vs) ->
         exists r', add numeq r vs = (r', Ok tt) /\ items (core r') = Ok (l ++ vs)
                    /\ frozen r' = Ok false) /\
      (forall pre v post, vs = pre ++ v :: post -> NoDup (l ++ pre) -> In v (l ++ pre) ->
         exists r', add numeq r vs = (r', Err ValueError) /\ items (core r') = Ok (l ++ pre)))).
Proof.
  intros Hr Hi. destruct (reachable_items _ _ Hr Hi) as [R W].
  split. { intros F. unfold add. now rewrite F. }
  intros F. destruct (add_rep r l vs R F) as (r' & E & R' & F').
  split.
  - rewrite E. cbn [fst]. destruct (spec_extend_prefix vs false l) as (ext & Ex).
    exists ext. rewrite <- Ex. split; [now apply items_spec|apply (rep_nodup _ _ R')].
  - intros Hs Hl. split.
    + intros Hn. rewrite (spec_extend_fresh vs false l Hs Hn Hl) in *. exists r'.
      split; [exact E|]. split; [now apply items_spec|]. unfold frozen in *. now rewrite F'.
    + intros pre v post -> Hn Hin. apply Forall_app in Hs. destruct Hs as [Hs1 Hs2].
      inversion Hs2 as [|? ? Hv _]; subst.
      assert (Ep : spec_extend l pre false = (l ++ pre, Ok tt)).
      { apply spec_extend_fresh; auto. rewrite app_length in Hl. rewrite ssize_ok_iff in *. lia. }
      assert (Ee : spec_extend l (pre ++ v :: post) false = (l ++ pre, Err ValueError)).
      { rewrite spec_extend_app by now rewrite Ep. rewrite Ep. cbn [fst spec_extend].
        rewrite spec_append_dup by auto. reflexivity. }
      rewrite Ee in *. exists r'. split; [exact E|]. now apply items_spec.
Qed.

(** ** Slices *)
Definition visits (s e k : Z) (i : nat) : bool :=
  ((s <=? zn i) && (zn i <? e)) && ((zn i - s) mod k =? 0).

Lemma filter_none {A} (f : A -> bool) l : (forall x, In x l -> f x = false) -> filter f l = [].
Proof.
  induction l as [|a l IH]; intros H; simpl; [auto|]. rewrite (H a) by now left.
  apply IH. intros x Hx. apply H. now right.
Qed.

Lemma py_range_pos fuel : forall s e k a m,
  0 < k -> (Z.to_nat (e - s) <= fuel)%nat -> zn a <= s -> e <= zn (a + m) ->
  py_range fuel s e k = map zn (filter (visits s e k) (seq a m)).
Proof.
  induction fuel as [|fuel IH]; intros s e k a m Hk Hf Ha He.
  - simpl. rewrite filter_none; [reflexivity|]. intros i Hi. unfold visits.
    destruct (Z.leb_spec s (zn i)); [|reflexivity]. destruct (Z.ltb_spec (zn i) e); [lia|reflexivity].
  - cbn [py_range]. assert (E : (0 <? k) = true) by now apply Z.ltb_lt. rewrite E.
    destruct (Z.ltb_spec s e) as [Hse|Hse].
    + set (j := Z.to_nat (s - zn a)).
      replace m with (j + S (m - j - 1))%nat by lia.
      rewrite seq_app, filter_app. rewrite (filter_none _ (seq a j)).
      2:{ intros i Hi. apply in_seq in Hi. unfold visits.
          destruct (Z.leb_spec s (zn i)); [lia|reflexivity]. }
      cbn [app seq filter].
      assert (Ev : visits s e k (a + j) = true).
      { unfold visits. replace (zn (a + j)) with s by lia. rewrite Z.sub_diag, Z.mod_0_l by lia.
        destruct (Z.leb_spec s s); [|lia]. destruct (Z.ltb_spec s e); [reflexivity|lia]. }
      rewrite Ev. cbn [map]. f_equal; [lia|].
      assert (Hcut : forall m' a', zn a' = s + 1 -> 
         filter (visits s e k) (seq a' m') = filter (visits (s + k) e k) (seq a' m')).
      { intros m' a' Ea. apply filter_ext_in. intros i Hi. apply in_seq in Hi. unfold visits.
        replace ((zn i - (s + k)) mod k) with ((zn i - s) mod k)
          by (replace (zn i - (s + k)) with (zn i - s + (-1) * k) by lia; now rewrite Z.mod_add by lia).
        destruct (Z.eqb_spec ((zn i - s) mod k) 0) as [Hm|Hm]; [|now rewrite !andb_false_r].
        rewrite !andb_true_r.
        assert (Hge : s + k <= zn i).
        { destruct (Z.le_gt_cases (s + k) (zn i)) as [|Hlt]; [auto|].
          rewrite Z.mod_small in Hm by lia. lia. }
        destruct (Z.leb_spec s (zn i)), (Z.leb_spec (s + k) (zn i)); try lia; reflexivity. }
      rewrite Hcut by lia. apply IH; try lia.
    + rewrite filter_none; [reflexivity|]. intros i Hi. unfold visits.
      destruct (Z.leb_spec s (zn i)); [|reflexivity]. destruct (Z.ltb_spec (zn i) e); [lia|reflexivity].
Qed.

Lemma slice_go_ok r l : rep r l -> wf l -> ~ In INone l -> forall ps new l0,
  rep new l0 -> (forall i, In i ps -> (i < List.length l)%nat) ->
  NoDup (l0 ++ map (fun i => nth i l INone) ps) ->
  ssize_ok (zn (List.length l0 + List.length ps)) = true ->
  exists new', (fix go (l : list Z) (new : cyreg) : res cyreg :=
     match l with
     | [] => Ok new
     | i :: l' =>
         let? v := at_ r i in
         match append numeq new v false with
         | (new', Ok _) => go l' new'
         | (_, Err e) => Err e
         end
     end) (map zn ps) new = Ok new' /\ rep new' (l0 ++ map (fun i => nth i l INone) ps).
Proof.
  intros R W HN. induction ps as [|i ps IH]; intros new l0 Rn Hps Hnd Hl.
  - simpl. rewrite app_nil_r. eauto.
  - cbn [map]. rewrite (at_spec r l _ R), spec_nth_nat.
    destruct (lt_nth l i) as (v & Hv); [apply Hps; now left|].
    rewrite Hv. cbn [bind]. pose proof (nth_error_nth _ _ INone Hv) as Ev.
    cbn [map] in Hnd. rewrite Ev in *.
    destruct (append_spec numeq Hp new l0 v false Rn) as [H1 H2].
    assert (Hin : In v l) by (eapply nth_error_In; eauto).
    assert (Hst : storable v).
    { split; [intros ->; auto|]. split; [apply (rep_hash _ _ R); auto|apply (wf_ask _ W); auto]. }
    assert (Hsp : spec_append l0 v false = (l0 ++ [v], Ok v)).
    { apply spec_append_storable; [exact Hst| |].
      - apply NoDup_remove_2 in Hnd. intros H. apply Hnd. apply in_or_app; auto.
      - simpl in Hl. rewrite ssize_ok_iff in *. lia. }
    rewrite Hsp in *. destruct (append numeq new v false) as [new' o]. simpl in H1, H2. subst o.
    destruct (IH new' (l0 ++ [v])) as (new'' & E & Rf).
    + exact H1.
    + intros j Hj. apply Hps. now right.
    + now rewrite <- app_assoc.
    + rewrite app_length. simpl in *. now replace (List.length l0 + 1 + List.length ps)%nat
        with (List.length l0 + S (List.length ps))%nat by lia.
    + exists new''. split; [exact E|]. now rewrite <- app_assoc in Rf.
Qed.

Definition nonneg (o : option Z) : Prop := match o with Some z => 0 <= z < 2 ^ 63 | None => True end.

Lemma C04_main r l start stop' step :
  reachable numeq r -> items r = Ok l -> ~ In INone l ->
  nonneg start -> nonneg stop' ->
  match stop' with Some z => z <= zn (List.length l) | None => True end ->
  match step with Some z => 0 < z < 2 ^ 63 | None => True end ->
  exists r' l', slice numeq r start stop' step = Ok r' /\ items r' = Ok l' /\
    spec_slice l start stop' step = Ok l'.
Proof.
  intros Hr Hi HN Hs He He2 Hk. destruct (reachable_items _ _ Hr Hi) as [R W].
  unfold slice, spec_slice.
  set (k := match step with Some z => z | None => 1 end).
  assert (Hk' : 0 < k < 2 ^ 63) by (unfold k; destruct step; lia). clearbody k. clear Hk.
  rewrite (rep_stop _ _ R).
  pose proof (wf_len _ W) as Hlen. rewrite ssize_ok_iff in Hlen.
  set (s := match start with Some z => z | None => 0 end).
  set (e := match stop' with Some z => z | None => zn (List.length l) end).
  assert (Hs' : 0 <= s < 2 ^ 63) by (unfold s, nonneg in *; destruct start; lia).
  assert (He' : 0 <= e <= zn (List.length l)) by (unfold e, nonneg in *; destruct stop'; lia).
  assert (Ok3 : ssize_ok s && ssize_ok e && ssize_ok k = true).
  { rewrite !andb_true_iff, !ssize_ok_iff. lia. }
  rewrite Ok3. cbn [negb].
  assert (Ek : (k =? 0) = false) by (apply Z.eqb_neq; lia). rewrite Ek.
  assert (Ek0 : (0 <? k) = true) by (apply Z.ltb_lt; lia).
  unfold slice_bounds. rewrite Ek0.
  rewrite (py_range_pos _ s e k 0 (List.length l)) by lia.
  set (ps := filter (visits s e k) (seq 0 (List.length l))).
  assert (Hps : forall i, In i ps -> (i < List.length l)%nat).
  { intros i H. apply filter_In in H. destruct H as [H _]. apply in_seq in H. lia. }
  assert (Hpn : NoDup (map (fun i => nth i l INone) ps)).
  { assert (Hnp : NoDup ps) by (apply NoDup_filter, seq_NoDup).
    assert (Hinj : forall i j, In i ps -> In j ps -> nth i l INone = nth j l INone -> i = j).
    { intros i j H1 H2. apply (proj1 (NoDup_nth l INone) (rep_nodup _ _ R)); auto. }
    clear - Hnp Hinj. induction ps as [|a ps IH]; [constructor|]. inversion Hnp; subst.
    simpl. constructor.
    - intros H. apply in_map_iff in H. destruct H as (b & E & Hb).
      apply Hinj in E; [subst; auto|now right|now left].
    - apply IH; [auto|]. intros. apply Hinj; auto; now right. }
  destruct (slice_go_ok r l R W HN ps empty_reg [] rep_empty Hps Hpn) as (r' & Er & Rr).
  { simpl. apply ssize_ok_iff.
    assert (List.length ps <= List.length l)%nat; [|lia].
    unfold ps. rewrite <- (seq_length (List.length l) 0) at 2.
    clear. induction (seq 0 (List.length l)) as [|a q IH]; simpl; [lia|].
    destruct (visits s e k a); simpl; lia. }
  exists r', (map (fun i => nth i l INone) ps). split; [exact Er|]. split; [now apply items_spec|].
  f_equal. f_equal. unfold ps. apply filter_ext_in. intros i Hin. apply in_seq in Hin.
  assert (Es : match start with
               | Some z => if z <? 0 then Z.max (z + zn (List.length l)) 0 else Z.min z (zn (List.length l))
               | None => 0 end = Z.min s (zn (List.length l))).
  { unfold s, nonneg in *. destruct start as [z|]; [|lia]. destruct (Z.ltb_spec z 0); lia. }
  assert (Ee : match stop' with
               | Some z => if z <? 0 then Z.max (z + zn (List.length l)) 0 else Z.min z (zn (List.length l))
               | None => zn (List.length l) end = e).
  { unfold e, nonneg in *. destruct stop' as [z|]; [|lia]. destruct (Z.ltb_spec z 0); lia. }
  rewrite Es, Ee. unfold visits.
  destruct (Z.le_gt_cases s (zn (List.length l))) as [Hle|Hgt].
  - now rewrite Z.min_l by lia.
  - rewrite Z.min_r by lia.
    destruct (Z.leb_spec (zn (List.length l)) (zn i)); [lia|].
    destruct (Z.leb_spec s (zn i)); [lia|]. reflexivity.
Qed.

(** ** Relabelling *)
Definition swap_pairs (m : list (item * item)) : list (item * item) := map (fun p => (snd p, fst p)) m.

Lemma swap_fst m : map fst (swap_pairs m) = map snd m.
Proof. unfold swap_pairs. rewrite map_map. apply map_ext. auto. Qed.
Lemma swap_snd m : map snd (swap_pairs m) = map fst m.
Proof. unfold swap_pairs. rewrite map_map. apply map_ext. auto. Qed.

Lemma relabel_good r l m :
  rep r l -> wf l -> NoDup (map fst m) -> (forall k, In k (map fst m) -> In k l) ->
  NoDup (map snd m) -> (forall v, In v (map snd m) -> hashable v = true /\ ask_exn v = None) ->
  (forall v, In v (map snd m) -> In v l -> In v (map fst m)) ->
  exists r', relabel numeq r m = (r', Ok tt) /\ rep r' (map (subst m) l) /\ wf (map (subst m) l).
Proof.
  intros R W Hk Hin Hv Hs Hfree.
  destruct (relabel_spec numeq Hp r l m R Hk Hin) as [H1 H2].
  assert (E : spec_relabel l m = (map (subst m) l, Ok tt)).
  { unfold spec_relabel.
    assert (Hh : forallb (fun p => hashable (snd p)) m = true).
    { apply forallb_forall. intros p Hp'. apply Hs. now apply in_map. }
    rewrite Hh. cbn [negb]. assert (Hb : nodupb (map snd m) = true) by now apply nodupb_spec.
    rewrite Hb. cbn [negb]. rewrite spec_check_pass; [reflexivity| |exact Hfree].
    intros v H. now apply Hs. }
  rewrite E in *. destruct (relabel numeq r m) as [r' o]. simpl in *. subst o.
  exists r'. split; [reflexivity|]. split; [exact H1|]. constructor.
  - intros v Hv'. apply in_map_iff in Hv'. destruct Hv' as (u & <- & Hu). unfold subst.
    destruct (get u m) as [w|] eqn:Eg; [|now apply (wf_ask _ W)].
    apply (dget_In _ item_eqb_spec) in Eg. apply Hs. apply in_map_iff. exists (u, w). auto.
  - rewrite map_length. apply (wf_len _ W).
Qed.

Lemma C05_main r l m :
  reachable numeq r -> items r = Ok l ->
  NoDup (map fst m) -> (forall k, In k (map fst m) -> In k l) ->
  NoDup (map snd m) -> (forall v, In v (map snd m) -> hashable v = true /\ ask_exn v = None) ->
  (forall v, In v (map snd m) -> In v l -> In v (map fst m)) ->
  exists r1 r2,
    relabel numeq r m = (r1, Ok tt) /\ items r1 = Ok (map (subst m) l) /\
    relabel numeq r1 (swap_pairs m) = (r2, Ok tt) /\ items r2 = Ok l.
Proof.
  intros Hr Hi Hk Hin Hv Hs Hfree. destruct (reachable_items _ _ Hr Hi) as [R W].
  destruct (relabel_good r l m) as (r1 & E1 & R1 & W1); auto.
  destruct (relabel_good r1 (map (subst m) l) (swap_pairs m)) as (r2 & E2 & R2 & W2); auto.
  - now rewrite swap_fst.
  - intros v. rewrite swap_fst. intros H. apply in_map_iff in H. destruct H as ((k & w) & E & H).
    simpl in E. subst w. apply in_map_iff. exists k. split; [now apply subst_lookup|].
    apply Hin. apply in_map_iff. exists (k, v). auto.
  - now rewrite swap_snd.
  - intros v. rewrite swap_snd. intros H. split; [apply (rep_hash _ _ R)|apply (wf_ask _ W)]; auto.
  - intros v. rewrite swap_snd, swap_fst. intros H1 H2. apply in_map_iff in H2.
    destruct H2 as (u & E & Hu). destruct (in_dec item_eq_dec u (map fst m)) as [Hd|Hd].
    + apply subst_in in Hd. rewrite E in Hd. apply in_map_iff. exists (u, v). auto.
    + rewrite subst_notin in E by auto. subst. contradiction.
  - exists r1, r2. split; [auto|]. split; [now apply items_spec|]. split; [auto|].
    rewrite (items_spec _ _ R2). f_equal. rewrite map_map. rewrite <- (map_id l) at 2.
    apply map_ext_in. intros u Hu. destruct (in_dec item_eq_dec u (map fst m)) as [Hd|Hd].
    + apply subst_in in Hd. apply subst_lookup; [now rewrite swap_fst|].
      unfold swap_pairs. apply in_map_iff. exists (u, subst m u). auto.
    + rewrite subst_notin with (v := u) by auto. apply subst_notin. rewrite swap_fst. intros H.
      apply Hd. now apply Hfree.
Qed.

Lemma C05_reject_main r l m :
  reachable numeq r -> items r = Ok l ->
  NoDup (map fst m) -> (forall k, In k (map fst m) -> In k l) ->
  (exists v, In v (map snd m) /\ In v l /\ ~ In v (map fst m)) \/ ~ NoDup (map snd m) \/
  (exists v, In v (map snd m) /\ hashable v = false) ->
  exists e, relabel numeq r m = (r, Err e).
Proof.
  intros Hr Hi Hk Hin Hbad. destruct (reachable_items _ _ Hr Hi) as [R W].
  destruct (relabel_spec numeq Hp r l m R Hk Hin) as [_ H2].
  assert (E : exists e, snd (spec_relabel l m) = Err e).
  { unfold spec_relabel. destruct (forallb _ m) eqn:Ef; simpl; [|eauto].
    destruct (nodupb (map snd m)) eqn:En; simpl; [|eauto].
    destruct (spec_check l (map fst m) (map snd m)) as [[]|e] eqn:Ec; simpl; [|eauto].
    exfalso. destruct Hbad as [(v & H3 & H4 & H5)|[H3|(v & H3 & H4)]].
    - clear - Ec H3 H4 H5. induction (map snd m) as [|x xs IH]; [destruct H3|]. simpl in Ec.
      unfold spec_contains in Ec. destruct (ask_exn x); [discriminate|]. cbn [bind] in Ec.
      destruct H3 as [->|H3].
      + apply inb_In in H4. rewrite H4 in Ec. apply inb_false in H5. rewrite H5 in Ec. discriminate.
      + destruct (inb x l && negb (inb x (map fst m))); [discriminate|]. auto.
    - apply H3. now apply nodupb_spec.
    - rewrite forallb_forall in Ef. apply in_map_iff in H3. destruct H3 as (p & <- & H3).
      specialize (Ef p H3). congruence. }
  destruct E as (e & E). rewrite E in H2. exists e. unfold relabel in *.
  destruct (iter_safe_relabels numeq m r); [discriminate|]. simpl in H2. congruence.
Qed.

Lemma C05_ints_main r l : reachable numeq r -> items r = Ok l ->
  let (r1, m) := relabel_as_integers r in
  items r1 = Ok (map (fun i => IInt (zn i)) (seq 0 (List.length l))) /\
  exists r2, relabel numeq r1 m = (r2, Ok tt) /\ items r2 = Ok l.
Proof.
  intros Hr Hi. destruct (reachable_items _ _ Hr Hi) as [R W].
  pose proof (relabel_ints_spec r l R) as H1.
  pose proof (relabel_ints_restore numeq Hp r l R W) as H2.
  destruct (relabel_as_integers r) as [r1 m]. simpl in H1.
  split; [now apply items_spec|]. destruct H2 as (r2 & E & R2). exists r2. split; [auto|].
  now apply items_spec.
Qed.

(** ** Concatenation *)
Lemma not_disjoint_split (l vs : list item) :
  ~ NoDup (l ++ vs) -> NoDup l -> NoDup vs ->
  exists pre v post, vs = pre ++ v :: post /\ NoDup (l ++ pre) /\ In v l.
Proof.
  intros H Hl. revert H. induction vs as [|v vs IH] using rev_ind; intros H Hv.
  - rewrite app_nil_r in H. contradiction.
  - assert (Hv' : NoDup vs) by (apply NoDup_remove_1 in Hv; now rewrite app_nil_r in Hv).
    assert (Hd : {NoDup (l ++ vs)} + {~ NoDup (l ++ vs)}).
    { destruct (nodupb (l ++ vs)) eqn:E.
      - left. now apply nodupb_spec.
      - right. intros Hc. apply nodupb_spec in Hc. congruence. }
    destruct Hd as [Hd|Hd].
    + exists vs, v, []. split; [auto|]. split; [auto|].
      destruct (in_dec item_eq_dec v l) as [Hi|Hi]; [auto|]. exfalso. apply H.
      rewrite app_assoc. apply NoDup_snoc; [auto|]. rewrite in_app_iff. intros [Hc|Hc]; [auto|].
      apply NoDup_remove_2 in Hv. rewrite app_nil_r in Hv. auto.
    + destruct (IH Hd Hv') as (pre & w & post & -> & H1 & H2).
      exists pre, w, (post ++ [v]). rewrite <- app_assoc. auto.
Qed.

Lemma C06_main a b la lb :
  reachable numeq (core a) -> reachable numeq (core b) ->
  items (core a) = Ok la -> items (core b) = Ok lb -> ~ In INone lb ->
  ssize_ok (zn (List.length la + List.length lb)) = true ->
  ((forall x, In x la -> ~ In x lb) ->
     exists c, register_add numeq a b = Ok c /\ items (core c) = Ok (la ++ lb)) /\
  ((exists x, In x la /\ In x lb) -> register_add numeq a b = Err ValueError).
Proof.
  intros Ha Hb Ia Ib HN Hl. destruct (reachable_items _ _ Ha Ia) as [Ra Wa].
  destruct (reachable_items _ _ Hb Ib) as [Rb Wb].
  assert (Hs : Forall storable lb).
  { apply Forall_forall. intros v Hv. split; [intros ->; auto|].
    split; [apply (rep_hash _ _ Rb); auto|apply (wf_ask _ Wb); auto]. }
  assert (Rc : rep (core (register_copy a)) la) by (destruct a as [c f]; destruct c; exact Ra).
  destruct (extend_spec numeq Hp lb false _ la Rc) as [H1 H2].
  unfold register_add. rewrite Ib. cbn [bind].
  split.
  - intros Hd. assert (Hn : NoDup (la ++ lb)).
    { clear - Hd Ra Rb. pose proof (rep_nodup _ _ Ra) as N1. pose proof (rep_nodup _ _ Rb) as N2.
      clear Ra Rb. induction la as [|x la IH]; simpl; [auto|]. inversion N1; subst. constructor.
      - rewrite in_app_iff. intros [H|H]; [auto|]. apply (Hd x); [now left|auto].
      - apply IH; auto. intros y Hy. apply Hd. now right. }
    rewrite (spec_extend_fresh lb false la Hs Hn Hl) in *.
    destruct (extend numeq (core (register_copy a)) lb false) as [c o]. simpl in H1, H2. subst o.
    eexists. split; [reflexivity|]. simpl. now apply items_spec.
  - intros (x & X1 & X2).
    assert (Hn : ~ NoDup (la ++ lb)).
    { intros Hc. apply in_split in X2. destruct X2 as (p & q & ->).
      rewrite app_assoc in Hc. apply NoDup_remove_2 in Hc. apply Hc.
      apply in_or_app. left. apply in_or_app. auto. }
    destruct (not_disjoint_split la lb Hn (rep_nodup _ _ Ra) (rep_nodup _ _ Rb))
      as (pre & v & post & El & Hnp & Hv).
    rewrite El in Hs, Hl. apply Forall_app in Hs. destruct Hs as [Hs1 Hs2].
    inversion Hs2 as [|? ? Hv0 _]; subst.
    assert (Ep : spec_extend la pre false = (la ++ pre, Ok tt)).
    { apply spec_extend_fresh; auto. rewrite app_length in Hl. rewrite ssize_ok_iff in *. lia. }
    assert (Ee : spec_extend la (pre ++ v :: post) false = (la ++ pre, Err ValueError)).
    { rewrite spec_extend_app by now rewrite Ep. rewrite Ep. cbn [fst spec_extend].
      rewrite spec_append_dup; [reflexivity|auto|apply in_or_app; auto]. }
    rewrite Ee in *.
    destruct (extend numeq (core (register_copy a)) (pre ++ v :: post) false) as [c o].
    simpl in H2. subst o. reflexivity.
Qed.

(** ** Self-incrementing registers *)
Lemma py_str_inj a b : py_str a = py_str b -> a = b.
Proof.
  intros H. unfold py_str in H. apply (f_equal NilZero.uint_of_string) in H.
  rewrite !NilZero.usu in H.
  - injection H as H. apply (f_equal Nat.of_uint) in H. now rewrite !Unsigned.of_to in H.
  - destruct b as [|b]; [discriminate|]. intros E. apply (f_equal Nat.of_uint) in E.
    rewrite Unsigned.of_to in E. discriminate.
  - destruct a as [|a]; [discriminate|]. intros E. apply (f_equal Nat.of_uint) in E.
    rewrite Unsigned.of_to in E. discriminate.
Qed.

Definition vars (n : nat) : list item := map (fun k => IVar (py_str k)) (seq 0 n).

Lemma vars_nodup n : NoDup (vars n).
Proof.
  unfold vars. apply NoDup_map_inj; [apply seq_NoDup|].
  intros a b _ _ H. injection H as H. now apply py_str_inj.
Qed.

Lemma vars_app a b : (a <= b)%nat ->
  vars a ++ map (fun k => IVar (py_str k)) (seq a (b - a)) = vars b.
Proof. intros H. unfold vars. rewrite <- map_app, <- seq_app. f_equal. f_equal. lia. Qed.

Lemma vars_nth n k : (k < n)%nat -> nth_error (vars n) k = Some (IVar (py_str k)).
Proof.
  intros H. unfold vars. rewrite nth_map.
  rewrite (nth_error_nth' _ 0%nat) by now rewrite seq_length.
  now rewrite seq_nth.
Qed.

Lemma si_step r n k : rep (core r) (vars n) -> frozen r = Ok false ->
  ssize_ok (zn (S k)) = true -> ssize_ok (zn n) = true ->
  exists r', si_getitem numeq r (zn k) = (r', Ok (IVar (py_str k))) /\
    rep (core r') (vars (Nat.max n (S k))) /\ frozen r' = Ok false.
Proof.
  intros R F Hk Hn. unfold si_getitem. rewrite (rep_stop _ _ R).
  assert (El : List.length (vars n) = n) by (unfold vars; now rewrite map_length, seq_length).
  rewrite El.
  assert (Hg : forall r0 m, rep (core r0) (vars m) -> (k < m)%nat ->
             getitem (core r0) (zn k) = Ok (IVar (py_str k))).
  { intros r0 m R0 Hm. rewrite (getitem_spec _ _ _ R0). unfold spec_at.
    assert (E : ssize_ok (zn k) = true) by (rewrite ssize_ok_iff in *; lia).
    rewrite E, spec_nth_nat, vars_nth by auto. reflexivity. }
  destruct (Z.leb_spec (zn n) (zn k)) as [Hle|Hgt].
  - rewrite F. replace (Z.to_nat (zn k + 1 - zn n)) with (S k - n)%nat by lia.
    set (vs := map (fun k => IVar (py_str k)) (seq n (S k - n))).
    destruct (add_rep r (vars n) vs R F) as (r' & E & R' & F').
    assert (Ex : spec_extend (vars n) vs false = (vars (S k), Ok tt)).
    { unfold vs. rewrite spec_extend_fresh.
      - now rewrite vars_app by lia.
      - apply Forall_forall. intros v Hv. apply in_map_iff in Hv. destruct Hv as (j & <- & _).
        repeat split; discriminate.
      - rewrite vars_app by lia. apply vars_nodup.
      - rewrite El, map_length, seq_length. now replace (n + (S k - n))%nat with (S k) by lia. }
    rewrite Ex in *. rewrite E. cbn [fst snd] in *.
    rewrite (Hg r' (S k) R') by lia. exists r'. split; [reflexivity|].
    rewrite Nat.max_r by lia. split; [exact R'|]. unfold frozen in *. now rewrite F'.
  - rewrite (Hg r n R) by lia. exists r. split; [reflexivity|]. rewrite Nat.max_l by lia. auto.
Qed.

Lemma si_run ks : forall r n, rep (core r) (vars n) -> frozen r = Ok false ->
  (forall k, In k ks -> ssize_ok (zn (S k)) = true) -> ssize_ok (zn n) = true ->
  exists r', si_accesses numeq r ks = (r', map (fun k => Ok (IVar (py_str k))) ks) /\
    rep (core r') (vars (fold_right (fun k m => Nat.max (S k) m) n ks)) /\ frozen r' = Ok false.
Proof.
  induction ks as [|k ks IH]; intros r n R F Hks Hn.
  - exists r. auto.
  - destruct (si_step r n k R F) as (r1 & E1 & R1 & F1); [apply Hks; now left|exact Hn|].
    cbn [si_accesses]. rewrite E1.
    destruct (IH r1 (Nat.max n (S k)) R1 F1) as (r2 & E2 & R2 & F2).
    + intros j Hj. apply Hks. now right.
    + specialize (Hks k (or_introl eq_refl)). rewrite ssize_ok_iff in *. lia.
    + rewrite E2. exists r2. split; [reflexivity|]. split; [|exact F2].
      cbn [fold_right].
      assert (Eq : forall l a b, fold_right (fun k m => Nat.max (S k) m) (Nat.max a b) l
                     = Nat.max b (fold_right (fun k m => Nat.max (S k) m) a l)).
      { clear. induction l as [|x l IH]; intros a b; cbn [fold_right]; [lia|]. rewrite IH. lia. }
      rewrite Eq in R2. exact R2.
Qed.

Lemma rep_new : new_register numeq [] = Ok (mkRegister empty_reg (Some false)).
Proof. reflexivity. Qed.

Lemma C07_main ks :
  (forall k, In k ks -> ssize_ok (zn (S k)) = true) ->
  exists r0 r1,
    new_register numeq [] = Ok r0 /\
    si_accesses numeq r0 ks = (r1, map (fun k => Ok (IVar (py_str k))) ks) /\
    items (core r1) = Ok (map (fun k => IVar (py_str k)) (seq 0 (fold_right (fun k m => Nat.max (S k) m) 0%nat ks))) /\
    (forall a b, py_str a = py_str b -> a = b) /\
    (forall k, ssize_ok (zn k) = true ->
       si_getitem numeq (freeze r1) (zn k) =
       (freeze r1, if (k <? fold_right (fun k m => Nat.max (S k) m) 0 ks)%nat
                   then Ok (IVar (py_str k)) else Err IndexError)).
Proof.
  intros Hks. exists (mkRegister empty_reg (Some false)).
  destruct (si_run ks (mkRegister empty_reg (Some false)) 0) as (r1 & E & R & F); auto.
  { apply rep_empty. }
  exists r1. split; [apply rep_new|]. split; [exact E|]. split; [now apply items_spec|].
  split; [exact py_str_inj|]. intros k Hk.
  set (n := fold_right (fun k m => Nat.max (S k) m) 0%nat ks) in *.
  unfold si_getitem. cbn [freeze core frozen frozen_]. rewrite (rep_stop _ _ R).
  assert (El : List.length (vars n) = n) by (unfold vars; now rewrite map_length, seq_length).
  rewrite El. rewrite (getitem_spec _ _ _ R). unfold spec_at. rewrite Hk, spec_nth_nat.
  destruct (Nat.ltb_spec k n).
  - rewrite vars_nth by auto. destruct (Z.leb_spec (zn n) (zn k)); [lia|reflexivity].
  - assert (En : nth_error (vars n) k = None) by (apply nth_error_None; lia). rewrite En.
    destruct (Z.leb_spec (zn n) (zn k)); [reflexivity|lia].
Qed.

End Plain.

Lemma register_add_unusable numeq (a b c : register) (vs : list item) :
  register_add numeq a b = Ok c -> add numeq c vs = (c, Err AttributeError).
Proof.
  unfold register_add. destruct (items (core b)) as [l|e]; [|discriminate]. cbn [bind].
  destruct (extend numeq (core (register_copy a)) l false) as [c' [[]|e]]; [|discriminate].
  intros [= <-]. reflexivity.
Qed.

From Coq Require Import List Ascii String Arith Bool Lia Permutation.
From Verif Require Import Py CounterModel CounterSpec.
Import ListNotations.

Lemma id_eqb_spec a b : reflect (a = b) (id_eqb a b).
Proof. unfold id_eqb. destruct (list_eq_dec ascii_dec a b); constructor; auto. Qed.

Section Combs.
Context {A : Type}.
Implicit Types l : list A.

Lemma combinations_length r l s : In s (combinations r l) -> List.length s = r.
Proof.
  revert r s. induction l as [|x l IH]; intros [|r] s; simpl.
  - intros [<-|[]]; reflexivity.
  - tauto.
  - intros [<-|[]]; reflexivity.
  - intros H. apply in_app_or in H. destruct H as [H|H].
    + apply in_map_iff in H. destruct H as (t & <- & Ht). simpl. f_equal. eauto.
    + eauto.
Qed.

Lemma combinations_subseq r l s : In s (combinations r l) -> subseq s l.
Proof.
  revert r s. induction l as [|x l IH]; intros [|r] s; simpl.
  - intros [<-|[]]; constructor.
  - tauto.
  - intros [<-|[]]. constructor. clear IH. induction l; constructor; auto.
  - intros H. apply in_app_or in H. destruct H as [H|H].
    + apply in_map_iff in H. destruct H as (t & <- & Ht). apply sub_take. eauto.
    + apply sub_skip. eauto.
Qed.

Lemma subseq_In s l x : subseq s l -> In x s -> In x l.
Proof. induction 1; simpl; intuition. Qed.

Lemma NoDup_app_intro {B} (l1 l2 : list B) :
  NoDup l1 -> NoDup l2 -> (forall x, In x l1 -> In x l2 -> False) -> NoDup (l1 ++ l2).
Proof.
  induction l1 as [|a l1 IH]; simpl; intros H1 H2 H; [auto|].
  inversion H1 as [|? ? Ha H1']; subst. constructor.
  - intros Hin. apply in_app_or in Hin. destruct Hin as [Hin|Hin]; [tauto|].
    apply (H a); auto.
  - apply IH; auto. intros x Hx Hx2. apply (H x); auto.
Qed.

Lemma combinations_NoDup r l : NoDup l -> NoDup (combinations r l).
Proof.
  revert r. induction l as [|x l IH]; intros [|r] Hl; simpl.
  - repeat constructor; auto.
  - constructor.
  - repeat constructor; auto.
  - inversion Hl as [|? ? Hx Hl']; subst.
    apply NoDup_app_intro.
    + apply FinFun.Injective_map_NoDup; [|auto]. intros a b E. congruence.
    + auto.
    + intros s H1 H2. apply in_map_iff in H1. destruct H1 as (t & <- & _).
      apply combinations_subseq in H2. apply Hx.
      eapply subseq_In; [exact H2|now left].
Qed.

Lemma combinations_count r l : List.length (combinations r l) = binom (List.length l) r.
Proof.
  revert r. induction l as [|x l IH]; intros [|r]; simpl; try reflexivity.
  rewrite app_length, map_length, !IH. reflexivity.
Qed.

Lemma binom_pos n k : k <= n -> 0 < binom n k.
Proof.
  revert k. induction n as [|n IH]; intros [|k] H; simpl; try lia.
  specialize (IH k ltac:(lia)). lia.
Qed.

Lemma binom_zero n k : n < k -> binom n k = 0.
Proof.
  revert k. induction n as [|n IH]; intros [|k] H; simpl; try lia.
  rewrite !IH by lia. reflexivity.
Qed.
End Combs.

Section Inv.
Variable alpha : list ascii.
Hypothesis alpha_nodup : NoDup alpha.
Notation n := (List.length alpha).

Definition all_from (l m : nat) : list id := flat_map (fun k => combinations k alpha) (seq l m).
Definition all (L : nat) : list id := all_from L (S n - L).
Definition rest (len : nat) : list id := all_from (S len) (n - len).

Lemma all_from_lengths l m s : In s (all_from l m) -> l <= List.length s < l + m.
Proof.
  unfold all_from. intros H. apply in_flat_map in H. destruct H as (k & Hk & Hs).
  apply in_seq in Hk. apply combinations_length in Hs. lia.
Qed.

Lemma all_from_NoDup l m : NoDup (all_from l m).
Proof.
  revert l. induction m as [|m IH]; intros l; unfold all_from; simpl; [constructor|].
  apply NoDup_app_intro.
  - apply combinations_NoDup; auto.
  - apply IH.
  - intros s H1 H2. apply combinations_length in H1.
    apply (all_from_lengths (S l) m) in H2. lia.
Qed.

Lemma all_from_count l m :
  List.length (all_from l m) = fold_right plus 0 (map (binom n) (seq l m)).
Proof.
  revert l. induction m as [|m IH]; intros l; unfold all_from; simpl; [reflexivity|].
  rewrite app_length, combinations_count. f_equal. apply IH.
Qed.

Lemma all_count L : List.length (all L) = ids_available n L.
Proof. apply all_from_count. Qed.

Lemma rest_step len : S len <= n -> rest len = combinations (S len) alpha ++ rest (S len).
Proof.
  intros H. unfold rest, all_from. replace (n - len) with (S (n - S len)) by lia. reflexivity.
Qed.

Lemma rest_end len : n <= len -> rest len = [].
Proof. intros H. unfold rest, all_from. replace (n - len) with 0 by lia. reflexivity. Qed.

Lemma all_start L : all L = combinations L alpha ++ rest L.
Proof.
  unfold all, rest, all_from. destruct (le_lt_dec L n) as [H|H].
  - replace (S n - L) with (S (n - L)) by lia. reflexivity.
  - replace (S n - L) with 0 by lia. replace (n - L) with 0 by lia. simpl.
    rewrite app_nil_r. symmetry. apply length_zero_iff_nil.
    rewrite combinations_count. apply binom_zero. exact H.
Qed.

(** What has been issued, what is pending, and what will be generated make up all combinations. *)
Definition pool (c : counter) : list id := id_set c ++ gen c ++ rest (length_ c).

Definition Inv (L : nat) (done : list id) (c : counter) : Prop :=
  Permutation (done ++ pool c) (all L).

Lemma Inv_NoDup L done c : Inv L done c -> NoDup (done ++ pool c).
Proof.
  intros H. eapply Permutation_NoDup; [symmetry; exact H|]. apply all_from_NoDup.
Qed.

Lemma set_add_fresh x s : ~ In x s -> set_add x s = s ++ [x].
Proof.
  intros H. unfold set_add. destruct (existsb (id_eqb x) s) eqn:E; [|reflexivity].
  apply existsb_exists in E. destruct E as (y & Hy & E).
  destruct (id_eqb_spec x y); [subst; tauto|discriminate].
Qed.

Lemma NoDup_app_r {B} (l1 l2 : list B) : NoDup (l1 ++ l2) -> NoDup l2.
Proof. induction l1; simpl; [auto|]. intros H; inversion H; auto. Qed.

Lemma NoDup_app_l {B} (l1 l2 : list B) : NoDup (l1 ++ l2) -> NoDup l1.
Proof.
  induction l1 as [|a l1 IH]; simpl; [constructor|]. intros H; inversion H as [|? ? Ha Hn]; subst.
  constructor; auto. intros Hin. apply Ha. apply in_or_app; auto.
Qed.

Lemma set_add_mid s x g : NoDup (s ++ x :: g) -> set_add x s ++ g = s ++ x :: g.
Proof.
  intros H. rewrite set_add_fresh.
  - rewrite <- app_assoc. reflexivity.
  - apply NoDup_remove_2 in H. intros Hin. apply H. apply in_or_app; auto.
Qed.

Lemma set_add_nonempty x s : set_add x s <> [].
Proof.
  unfold set_add. destruct s as [|y s]; simpl; [discriminate|].
  destruct (id_eqb x y || existsb (id_eqb x) s); simpl; discriminate.
Qed.

Lemma refresh_body_pool c : NoDup (pool c) -> pool (fst (refresh_body alpha c)) = pool c.
Proof.
  unfold refresh_body, pool. intros Hnd. destruct (gen c) as [|x g] eqn:Eg.
  - destruct (Nat.ltb_spec n (S (length_ c))) as [Hlt|Hge].
    + destruct (id_set c) eqn:Es; simpl; rewrite !rest_end by lia; rewrite ?app_nil_r; reflexivity.
    + simpl in Hnd. rewrite (rest_step (length_ c)) in Hnd |- * by lia.
      destruct (combinations (S (length_ c)) alpha) as [|x g] eqn:Ec.
      * exfalso. apply (f_equal (@List.length _)) in Ec. rewrite combinations_count in Ec.
        pose proof (binom_pos n (S (length_ c)) ltac:(lia)). simpl in Ec. lia.
      * cbn [fst gen id_set length_]. rewrite set_add_mid; [reflexivity|exact Hnd].
  - cbn [fst gen id_set length_]. simpl in Hnd |- *. rewrite set_add_mid; [reflexivity|exact Hnd].
Qed.

Lemma refresh_loop_pool k c : NoDup (pool c) -> pool (fst (refresh_loop alpha k c)) = pool c.
Proof.
  revert c. induction k as [|k IH]; intros c H; simpl; [reflexivity|].
  pose proof (refresh_body_pool c H) as E.
  destruct (refresh_body alpha c) as [c' [[|]|e]]; simpl in *; auto.
  rewrite IH; congruence.
Qed.

Lemma refresh_body_batch c : batch (fst (refresh_body alpha c)) = batch c.
Proof.
  unfold refresh_body. destruct (gen c); simpl; [|reflexivity].
  destruct (Nat.ltb n (S (length_ c))); [destruct (id_set c); reflexivity|].
  destruct (combinations (S (length_ c)) alpha); reflexivity.
Qed.

Lemma refresh_loop_batch k c : batch (fst (refresh_loop alpha k c)) = batch c.
Proof.
  revert c. induction k as [|k IH]; intros c; simpl; [reflexivity|].
  pose proof (refresh_body_batch c) as E.
  destruct (refresh_body alpha c) as [c' [[|]|e]]; simpl in *; auto.
  rewrite IH; congruence.
Qed.

(** With a non-empty id set nothing can fail. *)
Lemma refresh_loop_ok k c :
  id_set c <> [] ->
  snd (refresh_loop alpha k c) = Ok tt /\ id_set (fst (refresh_loop alpha k c)) <> [].
Proof.
  revert c. induction k as [|k IH]; intros c H; simpl; [auto|].
  unfold refresh_body. destruct (gen c) as [|x g].
  - destruct (Nat.ltb_spec n (S (length_ c))) as [Hlt|Hge].
    + destruct (id_set c) eqn:Es; [congruence|]. simpl. split; [reflexivity|discriminate].
    + destruct (combinations (S (length_ c)) alpha) as [|x g] eqn:Ec.
      * exfalso. apply (f_equal (@List.length _)) in Ec. rewrite combinations_count in Ec.
        pose proof (binom_pos n (S (length_ c)) ltac:(lia)). simpl in Ec. lia.
      * apply IH. simpl. apply set_add_nonempty.
  - apply IH. simpl. apply set_add_nonempty.
Qed.

Lemma refresh_outcome c :
  batch c >= 1 -> id_set c = [] ->
  (pool c <> [] /\ snd (refresh alpha c) = Ok tt /\ id_set (fst (refresh alpha c)) <> []) \/
  (pool c = [] /\ snd (refresh alpha c) = Err ValueError /\ id_set (fst (refresh alpha c)) = []).
Proof.
  intros Hb Hs. unfold refresh. destruct (batch c) as [|k]; [lia|]. simpl.
  unfold refresh_body, pool. rewrite Hs. destruct (gen c) as [|x g].
  - destruct (Nat.ltb_spec n (S (length_ c))) as [Hlt|Hge].
    + right. simpl. rewrite rest_end by lia. auto.
    + left. rewrite rest_step by lia.
      destruct (combinations (S (length_ c)) alpha) as [|x g] eqn:Ec.
      * exfalso. apply (f_equal (@List.length _)) in Ec. rewrite combinations_count in Ec.
        pose proof (binom_pos n (S (length_ c)) ltac:(lia)). simpl in Ec. lia.
      * split; [discriminate|]. apply refresh_loop_ok. simpl. apply set_add_nonempty.
  - left. split; [discriminate|]. apply refresh_loop_ok. simpl. apply set_add_nonempty.
Qed.

Lemma remove_nth_perm i s x : nth_error s i = Some x -> Permutation (x :: remove_nth i s) s.
Proof.
  revert i. induction s as [|y s IH]; intros [|i]; simpl; try discriminate.
  - intros [= ->]. apply Permutation_refl.
  - intros H. rewrite perm_swap. constructor. auto.
Qed.

Lemma set_pop_ok k s : s <> [] ->
  exists x s', set_pop k s = Ok (x, s') /\ Permutation (x :: s') s.
Proof.
  intros H. unfold set_pop. destruct s as [|y s]; [congruence|].
  remember (y :: s) as t. destruct (nth_error t (k mod List.length t)) as [x|] eqn:E.
  - exists x, (remove_nth (k mod List.length t) t). split; [reflexivity|].
    apply remove_nth_perm; auto.
  - exfalso. apply nth_error_None in E.
    pose proof (Nat.mod_upper_bound k (List.length t)) as Hm.
    subst t. simpl in *. specialize (Hm ltac:(lia)). lia.
Qed.

Lemma pool_perm_front c x s' :
  Permutation (x :: s') (id_set c) ->
  Permutation (x :: pool (mkCounter (length_ c) (batch c) (gen c) s')) (pool c).
Proof.
  intros H. unfold pool. simpl. change (x :: s' ++ gen c ++ rest (length_ c)) with
    ((x :: s') ++ gen c ++ rest (length_ c)). apply Permutation_app_tail. exact H.
Qed.

Lemma next_spec k c :
  batch c >= 1 -> NoDup (pool c) ->
  let '(c', r) := next alpha k c in
  batch c' = batch c /\
  match r with
  | Ok x => Permutation (x :: pool c') (pool c)
  | Err e => e = ValueError /\ pool c = [] /\ pool c' = []
  end.
Proof.
  intros Hb Hnd. unfold next.
  destruct (id_set c) as [|y s] eqn:Es.
  - pose proof (refresh_loop_batch (batch c) c) as Hbatch.
    pose proof (refresh_loop_pool (batch c) c Hnd) as Hpool.
    pose proof (refresh_outcome c Hb Es) as Ho.
    change (refresh_loop alpha (batch c) c) with (refresh alpha c) in *.
    destruct (refresh alpha c) as [c1 r1]; simpl in *.
    destruct Ho as [(Hp & -> & Hne)|(Hp & -> & He)].
    + destruct (set_pop_ok k (id_set c1) Hne) as (x & s' & -> & Hperm).
      simpl. split; [exact Hbatch|]. rewrite <- Hpool. apply pool_perm_front; auto.
    + split; [exact Hbatch|]. rewrite Hpool. auto.
  - assert (Hne : id_set c <> []) by (rewrite Es; discriminate).
    destruct (set_pop_ok k (id_set c) Hne) as (x & s' & -> & Hperm).
    simpl. split; [reflexivity|]. apply pool_perm_front; auto.
Qed.

Lemma run_spec s : forall c done L,
  batch c >= 1 -> Inv L done c ->
  let '(c', rs) := run alpha s c in
  batch c' = batch c /\ Inv L (done ++ issued rs) c' /\
  (forall e, In (Err e) rs -> e = ValueError).
Proof.
  induction s as [|[k|] s IH]; intros c done L Hb HI; simpl.
  - rewrite app_nil_r. simpl. tauto.
  - pose proof (NoDup_app_r _ _ (Inv_NoDup _ _ _ HI)) as Hnd.
    pose proof (next_spec k c Hb Hnd) as Hn.
    destruct (next alpha k c) as [c1 r]. destruct Hn as [Hb1 Hr].
    destruct r as [x|e].
    + assert (HI1 : Inv L (done ++ [x]) c1).
      { unfold Inv. rewrite <- app_assoc. simpl. rewrite Hr. exact HI. }
      specialize (IH c1 (done ++ [x]) L ltac:(lia) HI1).
      destruct (run alpha s c1) as [c2 rs]. simpl.
      destruct IH as (H1 & H2 & H3). rewrite <- app_assoc in H2. simpl in H2.
      split; [lia|]. split; [exact H2|]. intros e [E|E]; [discriminate|auto].
    + destruct Hr as (He & Hp & Hp').
      assert (HI1 : Inv L done c1) by (unfold Inv in *; congruence).
      specialize (IH c1 done L ltac:(lia) HI1).
      destruct (run alpha s c1) as [c2 rs]. simpl.
      destruct IH as (H1 & H2 & H3).
      split; [lia|]. split; [exact H2|]. intros e' [E|E]; [congruence|auto].
  - pose proof (NoDup_app_r _ _ (Inv_NoDup _ _ _ HI)) as Hnd.
    pose proof (refresh_loop_batch (batch c) c) as Hbatch.
    pose proof (refresh_loop_pool (batch c) c Hnd) as Hpool.
    assert (HI1 : Inv L done (fst (refresh alpha c))) by (unfold Inv, refresh in *; congruence).
    unfold refresh in *.
    specialize (IH (fst (refresh_loop alpha (batch c) c)) done L ltac:(lia) HI1).
    destruct (run alpha s (fst (refresh_loop alpha (batch c) c))) as [c2 rs].
    rewrite Hbatch in IH. exact IH.
Qed.

Lemma reset_Inv len bat : Inv (or_default len 4) [] (reset alpha len bat).
Proof.
  unfold Inv, pool, reset. simpl. rewrite all_start. apply Permutation_refl.
Qed.

Lemma or_default_pos o d : 1 <= d -> 1 <= or_default o d.
Proof. destruct o as [[|m]|]; simpl; lia. Qed.

Lemma run_reset s len bat :
  let '(c', rs) := run alpha s (reset alpha len bat) in
  batch c' >= 1 /\ Inv (or_default len 4) (issued rs) c' /\
  (forall e, In (Err e) rs -> e = ValueError).
Proof.
  pose proof (run_spec s (reset alpha len bat) [] (or_default len 4)) as H.
  pose proof (or_default_pos bat 1000 ltac:(apply Nat.leb_le; reflexivity)) as Hb.
  specialize (H Hb (reset_Inv len bat)).
  destruct (run alpha s (reset alpha len bat)) as [c' rs]. destruct H as (H1 & H2 & H3).
  split; [|split; auto]. rewrite H1. exact Hb.
Qed.

Lemma ids_distinct_lemma s len bat :
  NoDup (issued (snd (run alpha s (reset alpha len bat)))).
Proof.
  pose proof (run_reset s len bat) as H. destruct (run alpha s (reset alpha len bat)) as [c rs].
  simpl. destruct H as (_ & H & _). apply Inv_NoDup in H. eapply NoDup_app_l; eauto.
Qed.

Lemma ids_wellformed_lemma s len bat x :
  In x (issued (snd (run alpha s (reset alpha len bat)))) ->
  subseq x alpha /\ or_default len 4 <= List.length x.
Proof.
  pose proof (run_reset s len bat) as H. destruct (run alpha s (reset alpha len bat)) as [c rs].
  simpl. destruct H as (_ & H & _). intros Hx.
  assert (Hin : In x (all (or_default len 4))).
  { eapply Permutation_in; [exact H|]. apply in_or_app; auto. }
  split.
  - apply in_flat_map in Hin. destruct Hin as (k & _ & Hk). eapply combinations_subseq; eauto.
  - unfold all in Hin. apply all_from_lengths in Hin. lia.
Qed.

Lemma exhaustion_lemma s len bat k :
  let st := run alpha s (reset alpha len bat) in
  let L := or_default len 4 in
  List.length (issued (snd st)) <= ids_available n L /\
  (forall e, snd (next alpha k (fst st)) = Err e ->
     e = ValueError /\ List.length (issued (snd st)) = ids_available n L) /\
  (List.length (issued (snd st)) = ids_available n L ->
     snd (next alpha k (fst st)) = Err ValueError).
Proof.
  pose proof (run_reset s len bat) as H. destruct (run alpha s (reset alpha len bat)) as [c rs].
  destruct H as (Hb & H & _). simpl.
  pose proof (NoDup_app_r _ _ (Inv_NoDup _ _ _ H)) as Hnd.
  pose proof (next_spec k c Hb Hnd) as Hn.
  pose proof (Permutation_length H) as Hl. rewrite app_length, all_count in Hl.
  destruct (next alpha k c) as [c1 r]. destruct Hn as [_ Hr]. simpl.
  split; [lia|]. split.
  - intros e ->. destruct Hr as (-> & Hp & _). rewrite Hp in Hl. simpl in Hl. split; [auto|lia].
  - intros E. destruct r as [x|e].
    + exfalso. apply Permutation_length in Hr. simpl in Hr. lia.
    + destruct Hr as (-> & _). reflexivity.
Qed.

End Inv.

Lemma default_alphanum_nodup : NoDup default_alphanum.
Proof.
  assert (H : nodup ascii_dec default_alphanum = default_alphanum) by (vm_compute; reflexivity).
  rewrite <- H. apply NoDup_nodup.
Qed.

(** [''.join] is injective on lists of characters. *)
Lemma join_injective a b : string_of_list_ascii a = string_of_list_ascii b -> a = b.
Proof.
  intros H. apply (f_equal list_ascii_of_string) in H.
  now rewrite !list_ascii_of_string_of_list_ascii in H.
Qed.

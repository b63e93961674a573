(** Registers of qubits and bits as lists, including bits that compare equal to an integer. *)
From Coq Require Import List ZArith String Bool Arith Lia.
From Verif Require Import Py RegisterModel RegisterSpec RegisterProofs WorldModel WorldSpec.
Import ListNotations.
Local Open Scope nat_scope.

(** A qubit or a bit. *)
Definition prim (v : item) : Prop := is_qubit v \/ is_bit v.

Lemma prim_not_int v z : prim v -> v <> IInt z.
Proof. intros [[q ->]|[b ->]]; discriminate. Qed.

Lemma prim_hash v : prim v -> hashable v = true.
Proof. intros [[q ->]|[b ->]]; reflexivity. Qed.

Lemma prim_ask v : prim v -> ask_exn v = None.
Proof. intros [[q ->]|[b ->]]; reflexivity. Qed.

Lemma rep_contents r l : rep (core r) l -> contents r = l.
Proof. intros H. unfold contents. now rewrite (items_spec _ _ H). Qed.

(** What the item at position [n] becomes when it is pushed: an integer if it equals [n]. *)
Definition seen (bs : list (label * option bool)) (n : nat) (v : item) : item :=
  if numeq bs v (zn n) then IInt (zn n) else v.

Fixpoint seen_from (bs : list (label * option bool)) (n : nat) (vs : list item) : list item :=
  match vs with [] => [] | v :: vs' => seen bs n v :: seen_from bs (S n) vs' end.

Lemma seen_from_length bs vs : forall n, List.length (seen_from bs n vs) = List.length vs.
Proof. induction vs; intros; simpl; auto. Qed.

Lemma seen_from_app bs a b : forall n,
  seen_from bs n (a ++ b) = seen_from bs n a ++ seen_from bs (n + List.length a) b.
Proof.
  induction a as [|x a IH]; intros n; simpl; [now rewrite Nat.add_0_r|].
  now rewrite IH, <- plus_n_Sm.
Qed.

Lemma seen_qubits bs vs : Forall is_qubit vs -> forall n, seen_from bs n vs = vs.
Proof.
  induction 1 as [|v vs [q ->] _ IH]; intros n; simpl; [reflexivity|]. now rewrite IH.
Qed.

(** Integers in the list stand at their own position. *)
Definition tidy (l : list item) : Prop :=
  forall i v, nth_error l i = Some v -> prim v \/ v = IInt (zn i).

Lemma tidy_snoc l v : tidy l -> prim v \/ v = IInt (zn (List.length l)) -> tidy (l ++ [v]).
Proof.
  intros T Hv i w H. apply nth_app_last in H. destruct H as [H|[-> ->]]; [now apply T in H|auto].
Qed.

Lemma tidy_no_int l : tidy l -> ~ In (IInt (zn (List.length l))) l.
Proof.
  intros T H. apply In_nth_error in H. destruct H as [i Hi].
  destruct (T _ _ Hi) as [Hp|E]; [now apply (prim_not_int _ (zn (List.length l))) in Hp|].
  apply nth_lt in Hi. zi. apply Nat2Z.inj in E. lia.
Qed.

Lemma tidy_prim l : Forall prim l -> tidy l.
Proof. intros H i v Hi. left. rewrite Forall_forall in H. apply H. eapply nth_error_In; eauto. Qed.

Lemma tidy_nil : tidy [].
Proof. intros [|i] v; discriminate. Qed.

Lemma push_seen bs r l v :
  rep r l -> tidy l -> prim v -> ~ In v l -> ssize_ok (zn (List.length l) + 1) = true ->
  exists r', push (numeq bs) r v = (r', Ok v) /\ rep r' (l ++ [seen bs (List.length l) v]).
Proof.
  intros R T Hp Hv Hs. unfold push. rewrite (rep_stop _ _ R), Hs. simpl negb. cbv iota.
  assert (E : py_eqb (numeq bs) (IInt (zn (List.length l))) v = numeq bs v (zn (List.length l))).
  { unfold py_eqb. rewrite item_eqb_neq by (intros E; symmetry in E; revert E; now apply prim_not_int).
    destruct Hp as [[q ->]|[b ->]]; reflexivity. }
  rewrite E. unfold seen. destruct (numeq bs v (zn (List.length l))) eqn:En.
  - eexists. split; [reflexivity|]. rewrite <- (rep_stop _ _ R) at 1.
    apply rep_push_same; [auto|]. now apply tidy_no_int.
  - rewrite (prim_hash v Hp). eexists. split; [reflexivity|]. rewrite <- (rep_stop _ _ R).
    apply rep_push_other; auto using prim_hash, prim_not_int.
Qed.

Lemma append_prim bs r v p : prim v ->
  RegisterModel.append (numeq bs) r v p =
  if mem v (l2i r) then (r, if p then Ok v else Err ValueError) else push (numeq bs) r v.
Proof.
  intros [[q ->]|[b ->]]; unfold RegisterModel.append, count; simpl;
    destruct (mem _ (l2i r)); auto; destruct p; auto.
Qed.

Lemma append_seen bs r l v p :
  rep r l -> tidy l -> prim v -> ~ In v l -> ssize_ok (zn (List.length l) + 1) = true ->
  exists r', RegisterModel.append (numeq bs) r v p = (r', Ok v) /\ rep r' (l ++ [seen bs (List.length l) v]).
Proof.
  intros R T Hp Hv Hs. rewrite append_prim by auto.
  rewrite (mem_l2i_nonint r l v R) by (intros; now apply prim_not_int).
  apply inb_false in Hv. rewrite Hv. apply inb_false in Hv. now apply push_seen.
Qed.

Lemma seen_fresh bs n v w : prim w -> v <> w -> seen bs n v <> w.
Proof.
  unfold seen. intros Hp Hn. destruct (numeq bs v (zn n)); [|auto].
  intros E. symmetry in E. revert E. now apply prim_not_int.
Qed.

Lemma ssize_le a b : (a <= b)%nat -> ssize_ok (zn b + 1) = true -> ssize_ok (zn a + 1) = true.
Proof.
  unfold ssize_ok. intros H. rewrite !andb_true_iff, !Z.leb_le, !Z.ltb_lt. lia.
Qed.

Lemma extend_seen bs p vs : forall r l,
  rep r l -> tidy l -> Forall prim vs -> NoDup vs -> (forall v, In v vs -> ~ In v l) ->
  ssize_ok (zn (List.length l + List.length vs) + 1) = true ->
  exists r', extend (numeq bs) r vs p = (r', Ok tt) /\
    rep r' (l ++ seen_from bs (List.length l) vs) /\ tidy (l ++ seen_from bs (List.length l) vs).
Proof.
  induction vs as [|v vs IH]; intros r l R T Hp Hn Hd Hs; simpl.
  - exists r. rewrite app_nil_r. auto.
  - inversion Hp; subst. inversion Hn; subst.
    destruct (append_seen bs r l v p R T) as (r1 & E & R1); auto.
    { apply Hd. now left. }
    { eapply ssize_le; [|exact Hs]. simpl. lia. }
    rewrite E.
    assert (T1 : tidy (l ++ [seen bs (List.length l) v])).
    { apply tidy_snoc; auto. unfold seen. destruct (numeq _ _ _); auto. }
    destruct (IH r1 (l ++ [seen bs (List.length l) v])) as (r2 & E2 & R2 & T2); auto.
    { intros w Hw Hi. apply in_app_iff in Hi. destruct Hi as [Hi|[Hi|[]]].
      - revert Hi. apply Hd. now right.
      - revert Hi. apply seen_fresh; [|congruence]. rewrite Forall_forall in *. auto. }
    { rewrite app_length. simpl in *. eapply ssize_le; [|exact Hs]. lia. }
    exists r2. rewrite app_length in R2, T2. simpl in R2, T2.
    replace (List.length l + 1) with (S (List.length l)) in R2, T2 by lia.
    rewrite <- app_assoc in R2, T2. auto.
Qed.

Definition regok (r : register) : Prop := rep (core r) (contents r).

Lemma regok_rep r l : rep (core r) l -> regok r.
Proof. intros H. unfold regok. now rewrite (rep_contents _ _ H). Qed.

Lemma regok_items r : regok r -> items (core r) = Ok (contents r).
Proof. intros H. now apply items_spec. Qed.

Lemma register_add_seen bs a b :
  regok a -> regok b -> tidy (contents a) -> Forall prim (contents b) ->
  (forall v, In v (contents b) -> ~ In v (contents a)) ->
  ssize_ok (zn (List.length (contents a) + List.length (contents b)) + 1) = true ->
  exists r, register_add (numeq bs) a b = Ok r /\ regok r /\ tidy (contents r) /\
    contents r = contents a ++ seen_from bs (List.length (contents a)) (contents b).
Proof.
  intros Ra Rb Ta Hp Hd Hs. unfold register_add. rewrite (regok_items b Rb). simpl.
  assert (Rc : rep (copy (core a)) (contents a)) by (unfold copy; destruct (core a) eqn:E; unfold regok in Ra; now rewrite E in Ra).
  destruct (extend_seen bs false (contents b) (copy (core a)) (contents a)) as (r & E & R & T); auto.
  { apply (rep_nodup _ _ Rb). }
  rewrite E. exists (mkRegister r None). split; [reflexivity|].
  assert (C : contents (mkRegister r None) = contents a ++ seen_from bs (List.length (contents a)) (contents b))
    by now apply rep_contents.
  split; [|split; [now rewrite C|exact C]]. eapply regok_rep. simpl. exact R.
Qed.

Lemma join_seen bs rs : forall acc,
  regok acc -> tidy (contents acc) -> Forall regok rs -> Forall prim (List.concat (map contents rs)) ->
  NoDup (List.concat (map contents rs)) ->
  (forall v, In v (List.concat (map contents rs)) -> ~ In v (contents acc)) ->
  ssize_ok (zn (List.length (contents acc) + List.length (List.concat (map contents rs))) + 1) = true ->
  exists r, join bs acc rs = Ok r /\ regok r /\ tidy (contents r) /\
    contents r = contents acc ++ seen_from bs (List.length (contents acc)) (List.concat (map contents rs)).
Proof.
  induction rs as [|r rs IH]; intros acc Ra Ta Hr Hp Hn Hd Hs; simpl in *.
  - exists acc. rewrite app_nil_r. auto.
  - inversion Hr; subst. apply Forall_app in Hp. destruct Hp as [Hp1 Hp2].
    rewrite app_length in Hs.
    destruct (register_add_seen bs acc r) as (a1 & E & R1 & T1 & C1); auto.
    { intros v Hv. apply Hd. apply in_app_iff. auto. }
    { eapply ssize_le; [|exact Hs]. lia. }
    rewrite E. simpl.
    assert (Hdis : forall v, In v (List.concat (map contents rs)) -> ~ In v (contents r)).
    { intros v Hv Hi. clear - Hn Hv Hi. induction (contents r) as [|x l IHl]; [easy|].
      simpl in Hn. inversion Hn; subst. destruct Hi as [->|Hi]; auto. apply H1. apply in_app_iff. auto. }
    destruct (IH a1) as (r2 & E2 & R2 & T2 & C2); auto.
    { clear - Hn. induction (contents r) as [|x l IHl]; simpl in *; [auto|]. inversion Hn; auto. }
    { intros v Hv. rewrite C1. rewrite in_app_iff. intros [Hi|Hi].
      - revert Hi. apply Hd. apply in_app_iff. auto.
      - assert (Hpv : prim v) by (rewrite Forall_forall in Hp2; auto).
        assert (G : forall n, ~ In v (seen_from bs n (contents r))); [|now apply G in Hi].
        specialize (Hdis v Hv). clear - Hdis Hpv. induction (contents r) as [|x l IHl]; intros n; simpl; [easy|].
        intros [E|E]; [revert E; apply seen_fresh; auto|].
        { intros ->. apply Hdis. now left. }
        revert E. apply IHl. intros Hx. apply Hdis. now right. }
    { rewrite C1, app_length, seen_from_length. eapply ssize_le; [|exact Hs]. lia. }
    exists r2. split; [exact E2|]. split; [auto|]. split; [auto|].
    rewrite C2, C1, seen_from_app, app_length, seen_from_length, <- app_assoc. reflexivity.
Qed.

Lemma regok_new : regok (mkRegister empty_reg (Some false)).
Proof. apply regok_rep with (l := []). exact rep_empty. Qed.

Lemma contents_new f : contents (mkRegister empty_reg f) = [].
Proof. reflexivity. Qed.

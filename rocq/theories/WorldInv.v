(** The structure of circuits is kept by every call: registers of distinct qubits and bits, caches
    that agree with them. *)
From Coq Require Import List ZArith String Bool Arith Lia.
From Verif Require Import Py RegisterModel RegisterSpec RegisterProofs WorldModel WorldSpec WorldReg.
Import ListNotations.
Local Open Scope nat_scope.

(** ** Lists *)

Lemma set_nth_length {A} n (x : A) l : List.length (set_nth n x l) = List.length l.
Proof. revert n. induction l as [|y l IH]; intros [|n]; simpl; auto. Qed.

Lemma set_nth_same {A} n (x y : A) l : nth_error l n = Some y -> nth_error (set_nth n x l) n = Some x.
Proof. revert n. induction l as [|z l IH]; intros [|n]; simpl; try discriminate; auto. Qed.

Lemma set_nth_other {A} n m (x : A) l : n <> m -> nth_error (set_nth n x l) m = nth_error l m.
Proof.
  revert n m. induction l as [|z l IH]; intros [|n] [|m] H; simpl; auto; congruence.
Qed.

Lemma set_nth_set_nth {A} n (x y : A) l : set_nth n x (set_nth n y l) = set_nth n x l.
Proof. revert n. induction l as [|z l IH]; intros [|n]; simpl; auto. now rewrite IH. Qed.

Lemma set_nth_id {A} n (x : A) l : nth_error l n = Some x -> set_nth n x l = l.
Proof.
  revert n. induction l as [|z l IH]; intros [|n]; simpl; try discriminate; auto.
  - congruence.
  - intros H. now rewrite IH.
Qed.

Lemma set_nth_Forall {A} (Q : A -> Prop) n x l : Forall Q l -> Q x -> Forall Q (set_nth n x l).
Proof.
  intros H Hx. revert n. induction H as [|y l Hy Hl IH]; intros [|n]; simpl; auto.
Qed.

Lemma set_nth_map {A B} (f : A -> B) n x l : map f (set_nth n x l) = set_nth n (f x) (map f l).
Proof. revert n. induction l as [|z l IH]; intros [|n]; simpl; auto. now rewrite IH. Qed.

Lemma Forall_nth {A} (Q : A -> Prop) l n x : Forall Q l -> nth_error l n = Some x -> Q x.
Proof. intros H E. rewrite Forall_forall in H. apply H. eapply nth_error_In; eauto. Qed.

Lemma dset_absent {K V} (eqb : K -> K -> bool) (sp : forall a b, reflect (a = b) (eqb a b)) k (v : V) d :
  dget eqb k d = None -> dset eqb k v d = d ++ [(k, v)].
Proof.
  induction d as [|[a b] d IH]; simpl; [reflexivity|].
  destruct (sp k a); [discriminate|]. intros H. now rewrite IH.
Qed.

Lemma label_eqb_spec a b : reflect (a = b) (label_eqb a b).
Proof. unfold label_eqb. destruct (label_eq_dec a b); constructor; auto. Qed.

Lemma NoDup_app_intro {A} (a b : list A) :
  NoDup a -> NoDup b -> (forall v, In v a -> ~ In v b) -> NoDup (a ++ b).
Proof.
  induction 1 as [|x a Hx Ha IH]; intros Hb Hd; simpl; [auto|]. constructor.
  - rewrite in_app_iff. intros [H|H]; [auto|]. revert H. apply Hd. now left.
  - apply IH; auto. intros v Hv. apply Hd. now right.
Qed.

Lemma NoDup_app_l {A} (a b : list A) : NoDup (a ++ b) -> NoDup a.
Proof.
  induction a as [|x a IH]; simpl; [constructor|]. intros H. inversion H; subst.
  constructor; [|auto]. intros Hx. apply H2. apply in_app_iff. auto.
Qed.
Lemma NoDup_app_r {A} (a b : list A) : NoDup (a ++ b) -> NoDup b.
Proof. induction a as [|x a IH]; simpl; [auto|]. intros H. inversion H; auto. Qed.
Lemma NoDup_app_disj {A} (a b : list A) : NoDup (a ++ b) -> forall v, In v a -> ~ In v b.
Proof.
  induction a as [|x a IH]; simpl; [easy|]. intros H v [->|Hv].
  - inversion H; subst. intros Hb. apply H2. apply in_app_iff. auto.
  - inversion H; subst. auto.
Qed.

(** ** Dictionaries of registers *)

Definition gq (n : nat) (v : item) : Prop := exists q, v = IQubit q /\ q < n.
Definition gb (n : nat) (v : item) : Prop := exists b, v = IBit b /\ b < n.

Lemma gq_prim n v : gq n v -> prim v.
Proof. intros (q & -> & _). left. now exists q. Qed.
Lemma gb_prim n v : gb n v -> prim v.
Proof. intros (q & -> & _). right. now exists q. Qed.
Lemma gq_mono n m v : n <= m -> gq n v -> gq m v.
Proof. intros H (q & -> & Hq). exists q. split; [auto|lia]. Qed.
Lemma gb_mono n m v : n <= m -> gb n v -> gb m v.
Proof. intros H (q & -> & Hq). exists q. split; [auto|lia]. Qed.

Lemma gq_bound n l : NoDup l -> Forall (gq n) l -> List.length l <= n.
Proof.
  intros Hn H. rewrite <- (seq_length n 0), <- (map_length IQubit (seq 0 n)).
  apply NoDup_incl_length; [auto|]. intros v Hv. rewrite Forall_forall in H.
  destruct (H v Hv) as (q & -> & Hq). apply in_map. apply in_seq. lia.
Qed.
Lemma gb_bound n l : NoDup l -> Forall (gb n) l -> List.length l <= n.
Proof.
  intros Hn H. rewrite <- (seq_length n 0), <- (map_length IBit (seq 0 n)).
  apply NoDup_incl_length; [auto|]. intros v Hv. rewrite Forall_forall in H.
  destruct (H v Hv) as (q & -> & Hq). apply in_map. apply in_seq. lia.
Qed.

Record regs_ok (good : item -> Prop) (rs : list (label * register)) : Prop := {
  ro_labels : NoDup (map fst rs);
  ro_regs : Forall (fun p => regok (snd p)) rs;
  ro_nodup : NoDup (all_items rs);
  ro_good : Forall good (all_items rs);
  ro_frozen : Forall (fun p => frozen_ (snd p) <> None) rs
}.

Lemma all_items_app a b : all_items (a ++ b) = all_items a ++ all_items b.
Proof. unfold all_items. now rewrite map_app, concat_app. Qed.

Lemma regs_ok_nil good : regs_ok good [].
Proof. constructor; simpl; constructor. Qed.

Lemma regs_ok_weaken (g h : item -> Prop) rs : (forall v, g v -> h v) -> regs_ok g rs -> regs_ok h rs.
Proof.
  intros H [A B C D E]. constructor; auto. eapply Forall_impl; [|exact D]. auto.
Qed.

Lemma regs_ok_snoc good rs l r :
  regs_ok good rs -> dget label_eqb l rs = None -> regok r -> Forall good (contents r) ->
  (forall v, In v (contents r) -> ~ In v (all_items rs)) -> frozen_ r <> None ->
  regs_ok good (rs ++ [(l, r)]).
Proof.
  intros [A B C D F] Hl Hr Hg Hd Hf. constructor.
  - rewrite map_app. simpl. apply NoDup_snoc; [auto|]. now apply (dget_None _ label_eqb_spec) in Hl.
  - apply Forall_app. split; auto.
  - rewrite all_items_app. unfold all_items at 2. simpl. rewrite app_nil_r.
    apply NoDup_app_intro; auto. { apply (rep_nodup _ _ Hr). }
    intros v H1 H2. revert H1. apply Hd, H2.
  - rewrite all_items_app. apply Forall_app. split; [auto|]. unfold all_items. simpl. now rewrite app_nil_r.
  - apply Forall_app. split; auto.
Qed.

(** A dictionary in which one register is replaced. *)
Lemma dget_split l (rs : list (label * register)) r :
  dget label_eqb l rs = Some r ->
  exists a b, rs = a ++ (l, r) :: b /\ forall r', dset label_eqb l r' rs = a ++ (l, r') :: b.
Proof.
  induction rs as [|[k s] rs IH]; simpl; [discriminate|].
  destruct (label_eqb_spec l k) as [->|n].
  - intros [= ->]. exists [], rs. auto.
  - intros H. destruct (IH H) as (a & b & -> & Hs). exists ((k, s) :: a), b. split; [reflexivity|].
    intros r'. simpl. now rewrite Hs.
Qed.

Lemma regs_ok_set good rs l r r' :
  regs_ok good rs -> dget label_eqb l rs = Some r -> regok r' -> frozen_ r' <> None ->
  (exists v, contents r' = contents r ++ v /\ Forall good v /\ NoDup v /\
     (forall u, In u v -> ~ In u (all_items rs))) ->
  regs_ok good (dset label_eqb l r' rs).
Proof.
  intros [A B C D F] Hl Hr Hf (v & Hc & Hg & Hn & Hd).
  destruct (dget_split _ _ _ Hl) as (a & b & -> & Hs). rewrite Hs.
  rewrite all_items_app in C, D, Hd. unfold all_items in C, D, Hd. simpl in C, D, Hd.
  fold (all_items a) (all_items b) in *.
  constructor.
  - rewrite map_app in *. exact A.
  - apply Forall_app in B. destruct B as [B1 B2]. inversion B2; subst. apply Forall_app. split; auto.
  - rewrite all_items_app. unfold all_items. simpl. fold (all_items a) (all_items b). rewrite Hc.
    rewrite <- app_assoc. rewrite !app_assoc. rewrite <- app_assoc.
    assert (G : NoDup ((all_items a ++ contents r) ++ all_items b)) by now rewrite <- app_assoc.
    apply NoDup_app_intro.
    + now apply NoDup_app_l in G.
    + apply NoDup_app_intro; auto. { now apply NoDup_app_r in G. }
      intros u Hu Hb. apply (Hd u Hu). apply in_app_iff. right. apply in_app_iff. auto.
    + intros u Hu Hi. apply in_app_iff in Hi. destruct Hi as [Hi|Hi].
      * apply (Hd u Hi). rewrite app_assoc. apply in_app_iff. auto.
      * revert Hi. apply (NoDup_app_disj _ _ G u Hu).
  - rewrite all_items_app. unfold all_items. simpl. fold (all_items a) (all_items b). rewrite Hc.
    apply Forall_app in D. destruct D as [D1 D2]. apply Forall_app in D2. destruct D2 as [D2 D3].
    repeat (apply Forall_app; split); auto.
  - apply Forall_app in F. destruct F as [F1 F2]. inversion F2; subst. apply Forall_app. split; auto.
Qed.

Lemma regs_ok_get good rs l r : regs_ok good rs -> dget label_eqb l rs = Some r ->
  regok r /\ frozen_ r <> None /\ (forall v, In v (contents r) -> In v (all_items rs)).
Proof.
  intros [A B C D F] Hl. destruct (dget_split _ _ _ Hl) as (a & b & -> & _).
  apply Forall_app in B. destruct B as [_ B]. inversion B; subst.
  apply Forall_app in F. destruct F as [_ F]. inversion F; subst. simpl in *.
  split; [auto|split; [auto|]].
  intros v Hv. rewrite all_items_app. apply in_app_iff. right. unfold all_items. simpl.
  apply in_app_iff. auto.
Qed.

(** Concatenating the registers. *)
Lemma concat_regs_seen bs good n rs c :
  regs_ok good rs -> (forall v, good v -> prim v) -> List.length (all_items rs) <= n ->
  ssize_ok (zn n + 1) = true ->
  exists r, concat_regs bs (mkSide rs c) = Ok r /\ regok r /\ tidy (contents r) /\
    contents r = seen_from bs 0 (all_items rs).
Proof.
  intros [A B C D F] Hp Hl Hs. unfold concat_regs. simpl s_regs.
  assert (Em : map contents (map snd rs) = map (fun p => contents (snd p)) rs) by now rewrite map_map.
  set (acc := mkRegister empty_reg (Some false)).
  assert (Ca : contents acc = []) by reflexivity.
  destruct (join_seen bs (map snd rs) acc) as (r & E & R & T & Cr).
  - exact regok_new.
  - rewrite Ca. apply tidy_nil.
  - apply Forall_map. exact B.
  - rewrite Em. eapply Forall_impl; [|exact D]. auto.
  - rewrite Em. exact C.
  - rewrite Ca. auto.
  - rewrite Em, Ca. simpl. eapply ssize_le; [|exact Hs]. exact Hl.
  - exists r. rewrite Em, Ca in Cr. simpl in Cr. auto.
Qed.

(** Consequences of the register invariants: views, lookup, additions, reset. *)
From Coq Require Import List ZArith String Bool Arith Lia.
From Verif Require Import Py RegisterModel RegisterSpec RegisterProofs WorldModel WorldSpec WorldReg WorldInv WorldInv2 WorldInv3 WorldInv4 WorldInv5 WorldInv6 WorldInv7.
Import ListNotations.
Local Open Scope list_scope.
Local Open Scope nat_scope.

Lemma all_items_nth rs : forall i l r, nth_error rs i = Some (l, r) ->
  exists a b, all_items rs = a ++ contents r ++ b /\
   (forall j l' r' v, j <> i -> nth_error rs j = Some (l', r') -> In v (contents r') -> In v a \/ In v b).
Proof.
  induction rs as [|[k s] rs IH]; intros [|i] l r H; simpl in H; try discriminate.
  - injection H as -> ->. exists [], (all_items rs). split; [reflexivity|].
    intros [|j] l' r' v Hj Hn Hv; [easy|]. simpl in Hn. right. unfold all_items. apply in_concat.
    exists (contents r'). split; [|exact Hv]. apply in_map_iff. exists (l', r'). split; [reflexivity|].
    eapply nth_error_In; eauto.
  - destruct (IH i l r H) as (a & b & E & D). exists (contents s ++ a), b. split.
    + change (all_items ((k, s) :: rs)) with (contents s ++ all_items rs). rewrite E. now rewrite app_assoc.
    + intros [|j] l' r' v Hj Hn Hv; simpl in Hn.
      * injection Hn as -> ->. left. apply in_app_iff. auto.
      * destruct (D j l' r' v) as [Hd|Hd]; auto. left. apply in_app_iff. auto.
Qed.

Lemma separate_nodup rs : NoDup (all_items rs) -> separate rs.
Proof.
  intros H. split.
  - intros i l r Hi. destruct (all_items_nth _ _ _ _ Hi) as (a & b & E & _). rewrite E in H.
    apply NoDup_app_r in H. now apply NoDup_app_l in H.
  - intros i j l r l' r' v Hi Hj Hv Hv'. destruct (Nat.eq_dec j i) as [->|n]; [reflexivity|]. exfalso.
    destruct (all_items_nth _ _ _ _ Hi) as (a & b & E & D). rewrite E in H.
    destruct (D j l' r' v n Hj Hv') as [Ha|Hb].
    + apply (NoDup_app_disj _ _ H v Ha). apply in_app_iff. auto.
    + apply NoDup_app_r in H. apply (NoDup_app_disj _ _ H v Hv Hb).
Qed.

(** ** Lookup *)

Lemma PE v z : plain_eq v z = true -> v = IInt z.
Proof. unfold plain_eq. destruct (item_eqb_spec v (IInt z)); congruence. Qed.

Lemma find_in_spec good v : prim v -> forall rs k, regs_ok good rs ->
  (In v (all_items rs) /\ exists i l r j, nth_error rs i = Some (l, r) /\ nth_error (contents r) j = Some v /\
     find_in k v rs = Ok (k + i, l, zn j)) \/
  (~ In v (all_items rs) /\ find_in k v rs = Err ValueError).
Proof.
  intros Hp. induction rs as [|[l r] rs IH]; intros k H.
  - right. split; [easy|reflexivity].
  - destruct H as [A B C D F]. inversion B as [|? ? B1 B2]; subst. simpl in B1.
    change (all_items ((l, r) :: rs)) with (contents r ++ all_items rs) in *.
    cbn [find_in]. rewrite (count_prim r v B1 Hp). cbn [bind].
    destruct (inb v (contents r)) eqn:E.
    + apply inb_In in E. left. split; [apply in_app_iff; auto|].
      destruct (position_In v (contents r) E) as (j & Ej & Hj).
      exists 0, l, r, j. split; [reflexivity|]. split; [exact Hj|].
      pose proof (index_spec plain_eq PE (core r) (contents r) v false B1) as [_ E2].
      unfold bind. rewrite E2. unfold spec_index. simpl. rewrite Ej, (prim_ask v Hp), Nat.add_0_r. reflexivity.
    + apply inb_false in E.
      assert (R : regs_ok good rs).
      { constructor; auto.
        - now inversion A.
        - now apply NoDup_app_r in C.
        - apply Forall_app in D. tauto.
        - now inversion F. }
      destruct (IH (S k) R) as [(Hi & i & l' & r' & j & H1 & H2 & H3)|[Hi H3]].
      * left. split; [apply in_app_iff; auto|]. exists (S i), l', r', j. split; [exact H1|]. split; [exact H2|].
        rewrite H3. f_equal. f_equal. f_equal. lia.
      * right. split; [|exact H3]. intros Hv. apply in_app_iff in Hv. tauto.
Qed.

Section Proofs.
Variable P : Type.
Variable ptrue : P -> bool.
Variable peqb : P -> P -> bool.
Notation world := (world P).
Notation M := (M P).

(** Uniqueness makes the answer of [find_in] the only possible one. *)
Lemma find_in_iff good v rs : prim v -> regs_ok good rs ->
  (forall i l k, find_in 0 v rs = Ok (i, l, k) <->
     exists r j, nth_error rs i = Some (l, r) /\ nth_error (contents r) j = Some v /\ k = zn j) /\
  (find_in 0 v rs = Err ValueError <-> ~ In v (all_items rs)) /\
  (forall e, find_in 0 v rs = Err e -> e = ValueError).
Proof.
  intros Hp R. pose proof (separate_nodup rs (ro_nodup _ _ R)) as [S1 S2].
  destruct (find_in_spec good v Hp rs 0 R) as [(Hi & i & l & r & j & H1 & H2 & H3)|[Hi H3]]; rewrite H3.
  - simpl. split; [|split].
    + intros i' l' k. split.
      * intros [= <- <- <-]. eauto.
      * intros (r' & j' & H4 & H5 & ->).
        assert (i = i') as <- by (eapply S2; eauto using nth_error_In).
        rewrite H1 in H4. injection H4 as <- <-.
        rewrite (nth_unique _ _ _ _ (S1 _ _ _ H1) H2 H5). reflexivity.
    + split; [discriminate|contradiction].
    + discriminate.
  - split; [|split].
    + intros i l k. split; [discriminate|]. intros (r & j & H4 & H5 & _). exfalso. apply Hi.
      destruct (all_items_nth _ _ _ _ H4) as (a & b & E & _). rewrite E. apply in_app_iff. right.
      apply in_app_iff. left. eapply nth_error_In; eauto.
    + tauto.
    + congruence.
Qed.

Lemma item_label_spec (w : world) v l : item_label w v = Ok l <-> has_label w l v.
Proof.
  destruct v; simpl; try (split; [discriminate|easy]).
  - destruct (nth_error (w_qubit w) _); split; congruence.
  - destruct (nth_error (w_bit w) _) as [[l' o]|]; split; try discriminate.
    + intros [= ->]. eauto.
    + intros [o' [= -> _]]. reflexivity.
    + intros [o' H]. discriminate.
Qed.

(** Items that have labels: qubits and bits that exist. *)
Definition exists_in (w : world) (v : item) : Prop :=
  gq (List.length (w_qubit w)) v \/ gb (List.length (w_bit w)) v.
Lemma exists_label (w : world) v : exists_in w v -> exists l, item_label w v = Ok l.
Proof.
  intros [(q & -> & H)|(b & -> & H)]; simpl; apply nth_error_Some in H.
  - destruct (nth_error (w_qubit w) q); [eauto|congruence].
  - destruct (nth_error (w_bit w) b) as [[l o]|]; [eauto|congruence].
Qed.

Lemma scan_first (w : world) l : forall its, Forall (exists_in w) its ->
  lookup_first w l its (scan w l false [] its).
Proof.
  induction its as [|v its IH]; intros H; simpl.
  - right. split; [constructor|reflexivity].
  - inversion H as [|? ? H1 H2]; subst. destruct (exists_label w v H1) as [l' El]. rewrite El. simpl.
    destruct (label_eqb_spec l' l) as [->|n].
    + left. exists [], v, its. split; [reflexivity|]. split; [now apply item_label_spec|]. split; [constructor|reflexivity].
    + assert (Hn : ~ has_label w l v) by (rewrite <- item_label_spec; congruence).
      destruct (IH H2) as [(pre & u & post & -> & Hu & Hf & ->)|[Hf ->]].
      * left. exists (v :: pre), u, post. split; [reflexivity|]. split; [exact Hu|]. split; [constructor; auto|reflexivity].
      * right. split; [constructor; auto|reflexivity].
Qed.

Definition labelb (w : world) (l : label) (v : item) : bool :=
  match item_label w v with Ok l' => label_eqb l' l | Err _ => false end.
Lemma labelb_spec (w : world) l v : labelb w l v = true <-> has_label w l v.
Proof.
  rewrite <- item_label_spec. unfold labelb. destruct (item_label w v) as [l'|e]; [|split; discriminate].
  destruct (label_eqb_spec l' l); split; congruence.
Qed.

Lemma scan_all_acc (w : world) l : forall its found, Forall (exists_in w) its ->
  scan w l true found its = match found ++ filter (labelb w l) its with [] => Err ValueError | vs => Ok vs end.
Proof.
  induction its as [|v its IH]; intros found H; simpl.
  - rewrite app_nil_r. now destruct found.
  - inversion H as [|? ? H1 H2]; subst. destruct (exists_label w v H1) as [l' El].
    unfold labelb at 1. rewrite El. simpl. destruct (label_eqb l' l).
    + rewrite IH by exact H2. now rewrite <- app_assoc.
    + now apply IH.
Qed.
Lemma scan_all (w : world) l its : Forall (exists_in w) its -> lookup_all w l its (scan w l true [] its).
Proof.
  intros H. exists (labelb w l). split; [intros v _; apply labelb_spec|]. now rewrite scan_all_acc.
Qed.

Lemma searched_all s rl good : side_ok good s -> label_true rl = false ->
  searched s rl = Ok (all_items (s_regs s)).
Proof.
  intros [A _] E. unfold searched. rewrite E. pose proof (ro_regs _ _ A) as R.
  assert (H : mapM (fun p => items (core (snd p))) (s_regs s) = Ok (map (fun p => contents (snd p)) (s_regs s))).
  { apply mapM_ok. intros p Hp. rewrite Forall_forall in R. apply regok_items. auto. }
  rewrite H. reflexivity.
Qed.
Lemma searched_one s rl good : side_ok good s -> label_true rl = true ->
  match dget label_eqb rl (s_regs s) with
  | Some r => searched s rl = Ok (contents r)
  | None => searched s rl = Err KeyError
  end.
Proof.
  intros [A _] E. unfold searched. rewrite E. destruct (dget label_eqb rl (s_regs s)) as [r|] eqn:Er; [|reflexivity].
  destruct (regs_ok_get _ _ _ _ A Er) as (R & _). now rewrite (regok_items r R).
Qed.

Lemma dget_nth l (rs : list (label * register)) r : dget label_eqb l rs = Some r -> exists i, nth_error rs i = Some (l, r).
Proof.
  intros H. destruct (dget_split _ _ _ H) as (a & b & -> & _). exists (List.length a).
  rewrite nth_error_app2 by lia. now rewrite Nat.sub_diag.
Qed.
Lemma nth_dget l (rs : list (label * register)) i r : NoDup (map fst rs) -> nth_error rs i = Some (l, r) ->
  dget label_eqb l rs = Some r.
Proof.
  revert i. induction rs as [|[k s] rs IH]; intros [|i] Hn H; simpl in *; try discriminate.
  - injection H as -> ->. destruct (label_eqb_spec l l); congruence.
  - inversion Hn; subst. destruct (label_eqb_spec l k) as [->|]; [|eauto].
    exfalso. apply H2. apply in_map_iff. exists (k, r). split; [reflexivity|]. eapply nth_error_In; eauto.
Qed.

Lemma get_qubit_run (w : world) c x l rl all : JQ P w -> nth_error (w_circ w) c = Some x ->
  get_qubit c l rl all w = (w, let? its := searched (c_q x) rl in scan w l all [] its).
Proof.
  intros H E. unfold get_qubit. rewrite (bind_ok _ _ _ _ _ _ (get_circ_some _ c w x E)).
  unfold lift, mbind. destruct (searched (c_q x) rl); reflexivity.
Qed.
Lemma get_bit_run (w : world) c x l rl all : nth_error (w_circ w) c = Some x ->
  get_bit c l rl all w = (w, let? its := searched (c_b x) rl in scan w l all [] its).
Proof.
  intros E. unfold get_bit. rewrite (bind_ok _ _ _ _ _ _ (get_circ_some _ c w x E)).
  unfold lift, mbind. destruct (searched (c_b x) rl); reflexivity.
Qed.

(** ** Reset *)

Lemma item_resets (l : list item) : forall w : world, Forall (gb (List.length (w_bit w))) l ->
  exists bs, iterM (@item_reset P) l w = (set_bit w bs, Ok tt) /\ List.length bs = List.length (w_bit w) /\
    (forall b, In (IBit b) l -> bit_value P (set_bit w bs) b = None) /\
    (forall b, ~ In (IBit b) l -> nth_error bs b = nth_error (w_bit w) b) /\
    (forall b, option_map fst (nth_error bs b) = option_map fst (nth_error (w_bit w) b)) /\
    (forall b, bit_value P w b = None -> bit_value P (set_bit w bs) b = None).
Proof.
  induction l as [|v l IH]; intros w H.
  - exists (w_bit w). simpl. split; [destruct w; reflexivity|]. split; [reflexivity|].
    split; [easy|]. split; [reflexivity|]. split; [reflexivity|]. auto.
  - inversion H as [|? ? (b & -> & Hb) H2]; subst. simpl. unfold mbind. unfold bit_reset at 1.
    apply nth_error_Some in Hb. destruct (nth_error (w_bit w) b) as [[lb o]|] eqn:E; [|congruence].
    set (w1 := set_bit w (set_nth b (lb, None) (w_bit w))).
    assert (L1 : List.length (w_bit w1) = List.length (w_bit w)) by (cbn; apply set_nth_length).
    destruct (IH w1) as (bs & -> & Hl & Hin & Hout & Hlab & Hnone); [now rewrite L1|].
    exists bs. split; [reflexivity|]. split; [congruence|].
    assert (Hv : forall b', bit_value P w1 b' = if Nat.eqb b b' then None else bit_value P w b').
    { intros b'. unfold bit_value. cbn. destruct (Nat.eqb_spec b b') as [<-|n].
      - now rewrite (set_nth_same _ _ _ _ E).
      - now rewrite set_nth_other by exact n. }
    split; [|split; [|split]].
    + intros b' [[= <-]|Hi]; [|now apply Hin]. change (set_bit w bs) with (set_bit w1 bs). apply Hnone.
      rewrite Hv, Nat.eqb_refl. reflexivity.
    + intros b' Hn. rewrite Hout by (intros Hi; apply Hn; now right). cbn. apply set_nth_other.
      intros ->. apply Hn. now left.
    + intros b'. rewrite Hlab. cbn. destruct (Nat.eq_dec b b') as [<-|n].
      * now rewrite (set_nth_same _ _ _ _ E), E.
      * now rewrite set_nth_other by exact n.
    + intros b' Hn. change (set_bit w bs) with (set_bit w1 bs). apply Hnone. rewrite Hv.
      destruct (Nat.eqb b b'); auto.
Qed.

Lemma reset_keep_run (w : world) c x : IB P w -> small P w -> nth_error (w_circ w) c = Some x ->
  exists bs r, reset c true w =
      (set_bit (set_circ w (set_nth c (mkCirc [] (c_q x) (mkSide (s_regs (c_b x)) (Some r)) false None (c_par x)
                                       (c_vars x) (if c_par x then false else c_pfrozen x)) (w_circ w))) bs, Ok tt) /\
    (forall b, In (IBit b) (contents r) -> bit_value P (set_bit w bs) b = None) /\
    (forall b, ~ In (IBit b) (contents r) -> nth_error bs b = nth_error (w_bit w) b) /\
    (forall b, option_map fst (nth_error bs b) = option_map fst (nth_error (w_bit w) b)) /\
    (s_cache (c_b x) = None \/ s_regs (c_b x) <> [] -> contents r = circuit_bits x).
Proof.
  intros [Hj Hc] Sw E. unfold reset.
  rewrite (bind_ok _ _ _ _ _ _ (upd_circ_run _ _ _ _ _ E)).
  set (x1 := with_ctx (with_ops x []) None). set (w1 := set_circ w (set_nth c x1 (w_circ w))).
  assert (E1 : nth_error (w_circ w1) c = Some x1) by (eapply set_nth_same; eauto).
  assert (Em : map c_b (w_circ w1) = map c_b (w_circ w)) by (cbn; eapply map_set_nth_same; eauto).
  assert (Hj1 : JB P w1) by (revert Hj; apply JB_mono; auto).
  assert (Hcx : s_cache (c_b x1) = None -> clear_at P w1 x1) by exact (Hc c x E).
  destruct (bits_run P c w1 x1 Hj1 Sw E1) as (r & G & Er & Rr & _ & K & _).
  specialize (G Hcx). specialize (K Hcx).
  set (w2 := cached_b P w1 c x1 r) in *.
  destruct (item_resets (contents r) w2 G) as (bs & Ei & Hl & Hin & Hout & Hlab & _).
  exists bs, r. split; [|split; [exact Hin|split; [exact Hout|split; [exact Hlab|exact K]]]].
  unfold mbind at 1. rewrite (bind_ok _ _ _ _ _ _ Er).
  unfold lift. unfold mbind at 1. rewrite (regok_items r Rr), Ei. unfold unlock.
  assert (E2 : nth_error (w_circ (set_bit w2 bs)) c = Some (with_b x1 (mkSide (s_regs (c_b x1)) (Some r))))
    by (cbn; eapply set_nth_same; eauto).
  rewrite (upd_circ_run _ _ _ _ _ E2). f_equal. cbn. rewrite !set_nth_set_nth.
  destruct (c_par x) eqn:Ep; unfold with_locked, with_pfrozen, with_b, x1, with_ctx, with_ops; cbn; rewrite Ep; reflexivity.
Qed.

Lemma reset_drop_run (w : world) c x : nth_error (w_circ w) c = Some x ->
  reset c false w =
    (set_circ w (set_nth c (mkCirc [] (mkSide [] (s_cache (c_q x))) (mkSide [] (s_cache (c_b x))) false None (c_par x)
                                       (c_vars x) (if c_par x then false else c_pfrozen x)) (w_circ w)), Ok tt).
Proof.
  intros E. unfold reset.
  rewrite (bind_ok _ _ _ _ _ _ (upd_circ_run _ _ _ _ _ E)).
  assert (E1 : nth_error (w_circ (set_circ w (set_nth c (with_ctx (with_ops x []) None) (w_circ w)))) c =
    Some (with_ctx (with_ops x []) None)) by (eapply set_nth_same; eauto).
  rewrite (bind_ok _ _ _ _ _ _ (upd_circ_run _ _ _ _ _ E1)).
  unfold unlock.
  erewrite upd_circ_run by (cbn; eapply set_nth_same; exact E1).
  cbn. rewrite !set_nth_set_nth.
  destruct (c_par x) eqn:Ep; unfold with_locked, with_pfrozen, with_b, with_q, with_ctx, with_ops; cbn; rewrite ?Ep; reflexivity.
Qed.

End Proofs.

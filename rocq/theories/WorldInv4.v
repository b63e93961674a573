(** What add_qubit and add_bit do. *)
From Coq Require Import List ZArith String Bool Arith Lia.
From Verif Require Import Py RegisterModel RegisterSpec RegisterProofs WorldModel WorldSpec WorldReg WorldInv WorldInv2 WorldInv3.
Import ListNotations.
Local Open Scope nat_scope.

(** The register [l', r] that [add_qubit] with label [l] adds to, in the dictionary [rs1] that it first
    makes of [rs]. *)
Definition chosen (deflt : label) (rs : list (label * register)) (l : label)
  (rs1 : list (label * register)) (l' : label) (r : register) : Prop :=
  dget label_eqb l' rs1 = Some r /\
  (l <> LNone -> l' = l) /\ (l = LNone -> exists t, rs1 = (l', r) :: t) /\
  (rs1 = rs \/ (rs1 = rs ++ [(l', r)] /\ dget label_eqb l' rs = None /\ regok r /\ contents r = [] /\
                frozen_ r = Some false /\ (l = LNone -> l' = deflt /\ rs = []))).

Lemma dget_first l (r : register) t : dget label_eqb l ((l, r) :: t) = Some r.
Proof. simpl. destruct (label_eqb_spec l l); congruence. Qed.

Lemma dmem_false l (rs : list (label * register)) : dmem label_eqb l rs = false -> dget label_eqb l rs = None.
Proof. unfold dmem. destruct (dget label_eqb l rs); congruence. Qed.
Lemma dmem_true l (rs : list (label * register)) : dmem label_eqb l rs = true -> exists r, dget label_eqb l rs = Some r.
Proof. unfold dmem. destruct (dget label_eqb l rs); [eauto|discriminate]. Qed.

Section Add.
Variable P : Type.
Notation world := (world P).
Notation M := (M P).

Lemma set_circ_id c (w : world) x : nth_error (w_circ w) c = Some x -> set_circ w (set_nth c x (w_circ w)) = w.
Proof. intros H. rewrite set_nth_id by exact H. apply set_circ_same. Qed.

Definition qpre (c : nat) (x : circ) (l : label) : M label :=
  match l with
  | LNone =>
      when (match s_regs (c_q x) with [] => true | _ => false end) (add_qregister c 0 LNone) ;;
      let! y := get_circ c in first_label (c_q y)
  | _ => when (negb (regmem l (c_q x))) (add_qregister c 0 l) ;; ret l
  end.
Definition cpre (c : nat) (x : circ) (l : label) : M label :=
  match l with
  | LNone =>
      when (match s_regs (c_b x) with [] => true | _ => false end) (add_cregister c 0 LNone) ;;
      let! y := get_circ c in first_label (c_b y)
  | _ => when (negb (regmem l (c_b x))) (add_cregister c 0 l) ;; ret l
  end.

Lemma small_room_q (w : world) : small P w -> ssize_ok (zn (List.length (w_qubit w) + 0) + 1) = true.
Proof. intros [H _]. now rewrite Nat.add_0_r. Qed.
Lemma small_room_b (w : world) : small P w -> ssize_ok (zn (List.length (w_bit w) + 0) + 1) = true.
Proof. intros [_ H]. now rewrite Nat.add_0_r. Qed.

Lemma add_qregister_0 c l (w : world) x :
  JQ P w -> small P w -> nth_error (w_circ w) c = Some x ->
  dget label_eqb (qlabel x l) (s_regs (c_q x)) = None ->
  exists r, add_qregister c 0 l w = (set_circ w (set_nth c (more_q x (qlabel x l) r) (w_circ w)), Ok tt) /\
    regok r /\ contents r = [] /\ frozen_ r = Some false.
Proof.
  intros Hj Sw E Hl.
  destruct (add_qregister_run P c 0 l w x Hj Sw (small_room_q w Sw) E Hl) as (k & r & Er & Rr & Cr & Fr & _).
  simpl in Er, Cr. rewrite app_nil_r in Er. exists r. rewrite Er. destruct w; auto.
Qed.
Lemma add_cregister_0 c l (w : world) x :
  JB P w -> small P w -> nth_error (w_circ w) c = Some x ->
  dget label_eqb (clabel x l) (s_regs (c_b x)) = None ->
  exists r, add_cregister c 0 l w = (set_circ w (set_nth c (more_b x (clabel x l) r) (w_circ w)), Ok tt) /\
    regok r /\ contents r = [] /\ frozen_ r = Some false.
Proof.
  intros Hj Sw E Hl.
  destruct (add_cregister_run P c 0 l w x Hj Sw (small_room_b w Sw) E Hl) as (k & r & Er & Rr & Cr & Fr & _).
  simpl in Er, Cr. rewrite app_nil_r in Er. exists r. rewrite Er. destruct w; auto.
Qed.

Lemma qpre_run c x l (w : world) :
  JQ P w -> small P w -> nth_error (w_circ w) c = Some x ->
  exists s l' r, qpre c x l w = (set_circ w (set_nth c (with_q x s) (w_circ w)), Ok l') /\
    chosen (qlabel x LNone) (s_regs (c_q x)) l (s_regs s) l' r /\ (s = c_q x \/ s_cache s = None).
Proof.
  intros Hj Sw E. destruct (label_eq_dec l LNone) as [->|Hn].
  - unfold qpre. destruct (s_regs (c_q x)) as [|[l0 r0] t] eqn:Er.
    + assert (Hl : dget label_eqb (qlabel x LNone) (s_regs (c_q x)) = None) by (rewrite Er; reflexivity).
      destruct (add_qregister_0 c LNone w x Hj Sw E Hl) as (r & Ea & Rr & Cr & Fr).
      cbn [when]. rewrite (bind_ok _ _ _ _ _ _ Ea).
      rewrite (bind_ok _ _ _ _ _ _ (get_circ_some _ c (set_circ w (set_nth c (more_q x (qlabel x LNone) r) (w_circ w)))
                 (more_q x (qlabel x LNone) r) (set_nth_same _ _ _ _ E))).
      exists (mkSide [(qlabel x LNone, r)] None), (qlabel x LNone), r.
      unfold first_label, more_q at 2. cbn [c_q with_q s_regs]. rewrite Er. cbn [app].
      unfold more_q. rewrite Er.
      split; [reflexivity|]. split; [|right; reflexivity].
      split; [apply dget_first|]. split; [congruence|]. split; [eauto|]. right.
      split; [|split; [|split; [|split; [|split]]]]; auto.
    + cbn [when]. unfold mbind at 1. cbn [ret].
      rewrite (bind_ok _ _ _ _ _ _ (get_circ_some _ c w x E)).
      exists (c_q x), l0, r0. unfold first_label. rewrite Er. rewrite with_q_same, (set_circ_id c w x E).
      split; [reflexivity|]. split; [|left; reflexivity].
      split; [apply dget_first|]. split; [congruence|]. split; [eauto|]. auto.
  - assert (Eq : qlabel x l = l) by (destruct l; [congruence|reflexivity..]).
    assert (H : exists s r, (when (negb (regmem l (c_q x))) (add_qregister c 0 l) ;; ret l) w =
        (set_circ w (set_nth c (with_q x s) (w_circ w)), Ok l) /\
        chosen (qlabel x LNone) (s_regs (c_q x)) l (s_regs s) l r /\ (s = c_q x \/ s_cache s = None)).
    { unfold regmem. destruct (dmem label_eqb l (s_regs (c_q x))) eqn:Em; cbn [negb when].
      - apply dmem_true in Em. destruct Em as [r Em]. exists (c_q x), r.
        rewrite with_q_same, (set_circ_id c w x E).
        split; [reflexivity|]. split; [|left; reflexivity].
        split; [auto|]. split; [auto|]. split; [congruence|]. auto.
      - apply dmem_false in Em. rewrite <- Eq in Em.
        destruct (add_qregister_0 c l w x Hj Sw E Em) as (r & Ea & Rr & Cr & Fr). rewrite Eq in *.
        rewrite (bind_ok _ _ _ _ _ _ Ea). exists (mkSide (s_regs (c_q x) ++ [(l, r)]) None), r.
        split; [reflexivity|]. split; [|right; reflexivity].
        split; [now apply dget_snoc|]. split; [auto|]. split; [congruence|]. right.
        split; [|split; [|split; [|split; [|split]]]]; auto; congruence. }
    destruct H as (s & r & H). exists s, l, r. unfold qpre. destruct l; try congruence; exact H.
Qed.

Lemma cpre_run c x l (w : world) :
  JB P w -> small P w -> nth_error (w_circ w) c = Some x ->
  exists s l' r, cpre c x l w = (set_circ w (set_nth c (with_b x s) (w_circ w)), Ok l') /\
    chosen (clabel x LNone) (s_regs (c_b x)) l (s_regs s) l' r /\ (s = c_b x \/ s_cache s = None).
Proof.
  intros Hj Sw E. destruct (label_eq_dec l LNone) as [->|Hn].
  - unfold cpre. destruct (s_regs (c_b x)) as [|[l0 r0] t] eqn:Er.
    + assert (Hl : dget label_eqb (clabel x LNone) (s_regs (c_b x)) = None) by (rewrite Er; reflexivity).
      destruct (add_cregister_0 c LNone w x Hj Sw E Hl) as (r & Ea & Rr & Cr & Fr).
      cbn [when]. rewrite (bind_ok _ _ _ _ _ _ Ea).
      rewrite (bind_ok _ _ _ _ _ _ (get_circ_some _ c (set_circ w (set_nth c (more_b x (clabel x LNone) r) (w_circ w)))
                 (more_b x (clabel x LNone) r) (set_nth_same _ _ _ _ E))).
      exists (mkSide [(clabel x LNone, r)] None), (clabel x LNone), r.
      unfold first_label, more_b at 2. cbn [c_b with_b s_regs]. rewrite Er. cbn [app].
      unfold more_b. rewrite Er.
      split; [reflexivity|]. split; [|right; reflexivity].
      split; [apply dget_first|]. split; [congruence|]. split; [eauto|]. right.
      split; [|split; [|split; [|split; [|split]]]]; auto.
    + cbn [when]. unfold mbind at 1. cbn [ret].
      rewrite (bind_ok _ _ _ _ _ _ (get_circ_some _ c w x E)).
      exists (c_b x), l0, r0. unfold first_label. rewrite Er. rewrite with_b_same, (set_circ_id c w x E).
      split; [reflexivity|]. split; [|left; reflexivity].
      split; [apply dget_first|]. split; [congruence|]. split; [eauto|]. auto.
  - assert (Eq : clabel x l = l) by (destruct l; [congruence|reflexivity..]).
    assert (H : exists s r, (when (negb (regmem l (c_b x))) (add_cregister c 0 l) ;; ret l) w =
        (set_circ w (set_nth c (with_b x s) (w_circ w)), Ok l) /\
        chosen (clabel x LNone) (s_regs (c_b x)) l (s_regs s) l r /\ (s = c_b x \/ s_cache s = None)).
    { unfold regmem. destruct (dmem label_eqb l (s_regs (c_b x))) eqn:Em; cbn [negb when].
      - apply dmem_true in Em. destruct Em as [r Em]. exists (c_b x), r.
        rewrite with_b_same, (set_circ_id c w x E).
        split; [reflexivity|]. split; [|left; reflexivity].
        split; [auto|]. split; [auto|]. split; [congruence|]. auto.
      - apply dmem_false in Em. rewrite <- Eq in Em.
        destruct (add_cregister_0 c l w x Hj Sw E Em) as (r & Ea & Rr & Cr & Fr). rewrite Eq in *.
        rewrite (bind_ok _ _ _ _ _ _ Ea). exists (mkSide (s_regs (c_b x) ++ [(l, r)]) None), r.
        split; [reflexivity|]. split; [|right; reflexivity].
        split; [now apply dget_snoc|]. split; [auto|]. split; [congruence|]. right.
        split; [|split; [|split; [|split; [|split]]]]; auto; congruence. }
    destruct H as (s & r & H). exists s, l, r. unfold cpre. destruct l; try congruence; exact H.
Qed.

(** The half of a circuit in which the chosen register may just have been made. *)
Lemma chosen_ok good d s l s1 l' r :
  side_ok good s -> chosen d (s_regs s) l (s_regs s1) l' r -> s1 = s \/ s_cache s1 = None ->
  side_ok good s1.
Proof.
  intros H (Hg & _ & _ & [E|(E & Hl & Rr & Cr & Fr & _)]) Hc.
  - destruct Hc as [->|Hc]; [auto|]. constructor; [rewrite E; apply H|]. intros r' Hr. congruence.
  - constructor.
    + rewrite E. apply regs_ok_snoc; auto; [apply H| | |congruence].
      * rewrite Cr. constructor.
      * rewrite Cr. easy.
    + destruct Hc as [->|Hc]; [|congruence]. exfalso.
      assert (L : List.length (s_regs s) = List.length (s_regs s ++ [(l', r)])) by now rewrite <- E.
      rewrite app_length in L. simpl in L. lia.
Qed.

Lemma chosen_nonempty d rs l rs1 l' r : chosen d rs l rs1 l' r -> rs1 <> [].
Proof. intros (H & _) E. rewrite E in H. discriminate. Qed.

Lemma chosen_items d rs l rs1 l' r : chosen d rs l rs1 l' r -> all_items rs1 = all_items rs.
Proof.
  intros (_ & _ & _ & [->|(-> & _ & _ & C & _)]); [reflexivity|].
  rewrite all_items_app. unfold all_items at 2. simpl. rewrite C. now rewrite !app_nil_r.
Qed.

(** ** add_qubit *)

Inductive added_qubit (c : nat) (a : arg) (w w1 : world) (x1 : circ) (l' : label) (r : register)
  : world * res unit -> Prop :=
| aq_dup q rv : a = AItem q -> In (IQubit q) (circuit_qubits x1) -> regok rv -> contents rv = circuit_qubits x1 ->
    added_qubit c a w w1 x1 l' r (cached_q P w1 c x1 rv, Err ValueError)
| aq_frozen rv ls : (forall q, a = AItem q -> ~ In (IQubit q) (circuit_qubits x1)) -> frozen_ r = Some true ->
    ls = match a with AItem _ => [] | _ => [LStr (py_str (List.length (circuit_qubits x1)))] end ->
    regok rv -> contents rv = circuit_qubits x1 ->
    added_qubit c a w w1 x1 l' r
      (set_qubit (cached_q P w1 c x1 rv) (w_qubit w ++ ls), Err RegisterError)
| aq_ok q ls r' : (forall q, a = AItem q -> ~ In (IQubit q) (circuit_qubits x1)) -> frozen_ r = Some false ->
    q = match a with AItem q => q | _ => List.length (w_qubit w) end ->
    ls = match a with AItem _ => [] | _ => [LStr (py_str (List.length (circuit_qubits x1)))] end ->
    regok r' -> frozen_ r' = Some false -> contents r' = contents r ++ [IQubit q] ->
    added_qubit c a w w1 x1 l' r
      (set_qubit (set_circ w1 (set_nth c (with_q x1 (mkSide (dset label_eqb l' r' (s_regs (c_q x1))) None)) (w_circ w)))
                 (w_qubit w ++ ls), Ok tt).

Lemma dset_same l (r : register) rs : dget label_eqb l rs = Some r -> dset label_eqb l r rs = rs.
Proof.
  intros H. destruct (dget_split _ _ _ H) as (a & b & -> & Hs). apply Hs.
Qed.

Lemma add_qubit_run c a l (w : world) x :
  JQ P w -> small P w ->
  nth_error (w_circ w) c = Some x -> a <> ABad -> (forall q, a = AItem q -> q < List.length (w_qubit w)) ->
  exists s l' r, chosen (qlabel x LNone) (s_regs (c_q x)) l (s_regs s) l' r /\ (s = c_q x \/ s_cache s = None) /\
    added_qubit c a w (set_circ w (set_nth c (with_q x s) (w_circ w))) (with_q x s) l' r (add_qubit c a l w).
Proof.
  intros Hj Sw E Ha Hq.
  destruct (qpre_run c x l w Hj Sw E) as (s & l' & r & Ep & Hch & Hs).
  exists s, l', r. split; [exact Hch|]. split; [exact Hs|].
  set (x1 := with_q x s). set (w1 := set_circ w (set_nth c x1 (w_circ w))).
  assert (E1 : nth_error (w_circ w1) c = Some x1) by (eapply set_nth_same; eauto).
  pose proof (JQ_nth _ _ _ _ Hj E) as Hx.
  pose proof (chosen_ok _ _ _ _ _ _ _ Hx Hch Hs) as Hx1.
  assert (Hj1 : JQ P w1) by (apply JQ_put; auto).
  assert (Sw1 : small P w1) by exact Sw.
  destruct (qubits_run P c w1 x1 Hj1 Sw1 E1) as (rv & Ev & Rv & Gv & Kv & _).
  assert (Cv : contents rv = circuit_qubits x1).
  { apply Kv. right. apply (chosen_nonempty _ _ _ _ _ _ Hch). }
  set (w2 := cached_q P w1 c x1 rv). set (x2 := with_q x1 (mkSide (s_regs (c_q x1)) (Some rv))).
  assert (E2 : nth_error (w_circ w2) c = Some x2) by (eapply set_nth_same; eauto).
  assert (Hd : count (core rv) (match a with AItem q => IQubit q | _ => INone end)
               = Ok (match a with AItem q => inb (IQubit q) (circuit_qubits x1) | _ => false end)).
  { destruct a; try congruence.
    - rewrite (count_none rv Rv). f_equal. apply inb_false. intros H. rewrite Forall_forall in Gv.
      apply Gv in H. destruct H as (q & H & _). discriminate.
    - rewrite (count_prim rv _ Rv) by (left; eexists; reflexivity). now rewrite Cv. }
  assert (Hr : dget label_eqb l' (s_regs (c_q x2)) = Some r) by apply Hch.
  pose proof (so_regs _ _ Hx1) as Rs.
  destruct (regs_ok_get _ _ _ _ Rs (proj1 Hch)) as (Rr & Fr & Ir).
  assert (Tr : tidy (contents r)).
  { apply (tidy_good (gq (List.length (w_qubit w)))); [intros v; apply gq_prim|].
    apply Forall_forall. intros v Hv. pose proof (ro_good _ _ Rs) as G. rewrite Forall_forall in G. auto. }
  assert (Lr : List.length (contents r) <= List.length (w_qubit w)).
  { etransitivity; [apply (regs_ok_length _ _ _ _ Rs (proj1 Hch))|].
    apply gq_bound; [apply (ro_nodup _ _ Rs)|apply (ro_good _ _ Rs)]. }
  assert (Lw : ssize_ok (zn (List.length (contents r)) + 1) = true) by (eapply ssize_le; [exact Lr|apply Sw]).
  set (q := match a with AItem q => q | _ => List.length (w_qubit w) end).
  set (ls := match a with AItem _ => [] | _ => [LStr (py_str (List.length (circuit_qubits x1)))] end).
  (* the part after the duplicate check *)
  assert (Main : (forall q, a = AItem q -> ~ In (IQubit q) (circuit_qubits x1)) ->
    added_qubit c a w w1 x1 l' r
     ((let! y := get_circ c in
      let! r := regget l' (c_q y) in
      let! q := match a with
                | AItem q => ret q
                | _ => let! k := num_qubits c in new_qubit (LStr (py_str k))
                end in
      let! bs := read (@w_bit P) in
      let (r', o) := add (numeq bs) r [IQubit q] in
      put_qreg c l' r' ;; lift o ;;
      drop_qcache c) w2)).
  { intros Hnew.
    rewrite (bind_ok _ _ _ _ _ _ (get_circ_some _ c w2 x2 E2)).
    unfold regget. rewrite Hr. unfold mbind at 1. cbn [ret].
    assert (Eq : (match a with
                | AItem q => ret q
                | _ => let! k := num_qubits c in new_qubit (LStr (py_str k))
                end) w2 = (set_qubit w2 (w_qubit w ++ ls), Ok q)).
    { destruct a as [|q0|]; try congruence.
      - assert (Ej : JQ P w2).
        { apply JQ_put; auto. constructor; [exact Rs|]. intros r0 [= <-]. auto. }
        destruct (qubits_run P c w2 x2 Ej Sw1 E2) as (rv' & Ev' & Rv' & _ & _ & Kv').
        rewrite (Kv' rv eq_refl) in Ev'.
        unfold num_qubits. rewrite (bind_ok P _ _ w2 w2 (stop (core rv))).
        + unfold new_qubit, ls, q. now rewrite (stop_contents rv Rv), Cv.
        + rewrite (bind_ok _ _ _ _ _ _ Ev'). unfold ret. f_equal.
          unfold cached_q. apply set_circ_id. exact E2.
      - unfold ls, q, ret. rewrite app_nil_r. reflexivity. }
    rewrite (bind_ok _ _ _ _ _ _ Eq).
    unfold read, mbind at 1.
    set (w3 := set_qubit w2 (w_qubit w ++ ls)).
    assert (E3 : nth_error (w_circ w3) c = Some x2) by exact E2.
    assert (Hnq : ~ In (IQubit q) (contents r)).
    { intros Hi. apply Ir in Hi. destruct a as [|q0|]; try congruence.
      - pose proof (ro_good _ _ Rs) as G. rewrite Forall_forall in G. apply G in Hi.
        destruct Hi as (q' & [= <-] & H). unfold q in H. lia.
      - apply (Hnew q0 eq_refl). exact Hi. }
    destruct (frozen_ r) as [[|]|] eqn:Ef; [| |congruence].
    - rewrite add_frozen by exact Ef. unfold put_qreg.
      rewrite (bind_ok _ _ _ _ _ _ (upd_circ_run _ _ _ _ _ E3)). unfold lift, mbind.
      rewrite (dset_same _ _ _ Hr). unfold w3, w2, cached_q, w1, x2.
      cbn [w_circ set_qubit set_circ c_q with_q s_regs s_cache].
      rewrite set_nth_set_nth.
      match goal with |- added_qubit _ _ _ _ _ _ _ (?W, _) =>
        replace W with (set_qubit (cached_q P w1 c x1 rv) (w_qubit w ++ ls)) end.
      { apply aq_frozen; auto. }
      unfold cached_q, w1. cbn. rewrite !set_nth_set_nth. destruct w; reflexivity.
    - destruct (add_fresh (w_bit w3) r (IQubit q) Rr Tr) as (r' & Ea & Rr' & Fr' & Cr'); auto.
      { left. eexists; reflexivity. }
      unfold seen in Cr'. cbn [numeq] in Cr'. rewrite Ea.
      unfold put_qreg. rewrite (bind_ok _ _ _ _ _ _ (upd_circ_run _ _ _ _ _ E3)).
      unfold lift at 1. unfold mbind at 1. unfold drop_qcache.
      erewrite upd_circ_run by (cbn; eapply set_nth_same; exact E2).
      match goal with |- added_qubit _ _ _ _ _ _ _ (?W, _) =>
        replace W with
         (set_qubit (set_circ w1 (set_nth c (with_q x1 (mkSide (dset label_eqb l' r' (s_regs (c_q x1))) None)) (w_circ w)))
                 (w_qubit w ++ ls)) end.
      { apply aq_ok with (q := q); auto. }
      cbn. rewrite !set_nth_set_nth. destruct w; reflexivity. }
  unfold add_qubit.
  assert (Ex : qubit_exists a w = (w, Ok tt)).
  { destruct a as [|q0|]; try congruence; [reflexivity|]. cbn. specialize (Hq q0 eq_refl).
    apply nth_error_Some in Hq. destruct (nth_error (w_qubit w) q0); [reflexivity|congruence]. }
  assert (G : added_qubit c a w w1 x1 l' r
    ((let! v := qubits c in
    let! dup := lift (count (core v) (match a with AItem q => IQubit q | _ => INone end)) in
    if dup then raise ValueError
    else
      let! y := get_circ c in
      let! r := regget l' (c_q y) in
      let! q := match a with
                | AItem q => ret q
                | _ => let! k := num_qubits c in new_qubit (LStr (py_str k))
                end in
      let! bs := read (@w_bit P) in
      let (r', o) := add (numeq bs) r [IQubit q] in
      put_qreg c l' r' ;; lift o ;;
      drop_qcache c) w1)).
  { rewrite (bind_ok _ _ _ _ _ _ Ev). unfold lift at 1. unfold mbind at 1. rewrite Hd.
    destruct a as [|q0|]; try congruence.
    - apply Main. intros q0 H. discriminate.
    - destruct (inb (IQubit q0) (circuit_qubits x1)) eqn:Ei.
      + apply inb_In in Ei. unfold raise. apply aq_dup with (q := q0); auto.
      + apply inb_false in Ei. apply Main. intros q1 [= <-]. exact Ei. }
  destruct a as [|q0|]; try congruence; rewrite (bind_ok _ _ _ _ _ _ Ex), (bind_ok _ _ _ _ _ _ (get_circ_some _ c w x E));
    fold (qpre c x l); rewrite (bind_ok _ _ _ _ _ _ Ep); exact G.
Qed.

(** ** add_bit *)

(** The bit that is added: the given one, unless it holds 0. *)
Definition bit_used (w : world) (a : arg) : option nat :=
  match a with AItem b => if bit_true w b then Some b else None | _ => None end.

Inductive added_bit (c : nat) (a : arg) (w w1 : world) (x1 : circ) (l' : label) (r : register)
  : world * res unit -> Prop :=
| ab_dup b rv : a = AItem b -> In (IBit b) (circuit_bits x1) -> regok rv -> contents rv = circuit_bits x1 ->
    added_bit c a w w1 x1 l' r (cached_b P w1 c x1 rv, Err ValueError)
| ab_frozen rv ls : (forall b, a = AItem b -> ~ In (IBit b) (circuit_bits x1)) -> frozen_ r = Some true ->
    ls = match bit_used w a with Some _ => [] | None => [(LStr (py_str (List.length (circuit_bits x1))), None)] end ->
    regok rv -> contents rv = circuit_bits x1 ->
    added_bit c a w w1 x1 l' r
      (set_bit (cached_b P w1 c x1 rv) (w_bit w ++ ls), Err RegisterError)
| ab_ok b ls r' : (forall b, a = AItem b -> ~ In (IBit b) (circuit_bits x1)) -> frozen_ r = Some false ->
    b = match bit_used w a with Some b => b | None => List.length (w_bit w) end ->
    ls = match bit_used w a with Some _ => [] | None => [(LStr (py_str (List.length (circuit_bits x1))), None)] end ->
    regok r' -> frozen_ r' = Some false ->
    contents r' = contents r ++ [seen (w_bit w ++ ls) (List.length (contents r)) (IBit b)] ->
    added_bit c a w w1 x1 l' r
      (set_bit (set_circ w1 (set_nth c (with_b x1 (mkSide (dset label_eqb l' r' (s_regs (c_b x1))) None)) (w_circ w)))
                 (w_bit w ++ ls), Ok tt).

Lemma add_bit_run c a l (w : world) x :
  JB P w -> small P w ->
  nth_error (w_circ w) c = Some x -> clear_at P w x ->
  a <> ABad -> (forall b, a = AItem b -> b < List.length (w_bit w)) ->
  exists s l' r, chosen (clabel x LNone) (s_regs (c_b x)) l (s_regs s) l' r /\ (s = c_b x \/ s_cache s = None) /\
    added_bit c a w (set_circ w (set_nth c (with_b x s) (w_circ w))) (with_b x s) l' r (add_bit c a l w).
Proof.
  intros Hj Sw E Hcl Ha Hq.
  destruct (cpre_run c x l w Hj Sw E) as (s & l' & r & Ep & Hch & Hs).
  exists s, l', r. split; [exact Hch|]. split; [exact Hs|].
  set (x1 := with_b x s). set (w1 := set_circ w (set_nth c x1 (w_circ w))).
  assert (E1 : nth_error (w_circ w1) c = Some x1) by (eapply set_nth_same; eauto).
  pose proof (JB_nth _ _ _ _ Hj E) as Hx.
  pose proof (chosen_ok _ _ _ _ _ _ _ Hx Hch Hs) as Hx1.
  assert (Hj1 : JB P w1) by (apply JB_put; auto).
  assert (Sw1 : small P w1) by exact Sw.
  assert (Hcl1 : clear_at P w1 x1).
  { intros i b Hi. apply (Hcl i b). revert Hi. unfold circuit_bits. cbn. now rewrite (chosen_items _ _ _ _ _ _ Hch). }
  destruct (bits_run P c w1 x1 Hj1 Sw1 E1) as (rv & Gv & Ev & Rv & _ & Kv & _).
  assert (Cv : contents rv = circuit_bits x1).
  { apply Kv; [auto|]. right. apply (chosen_nonempty _ _ _ _ _ _ Hch). }
  specialize (Gv (fun _ => Hcl1)).
  set (w2 := cached_b P w1 c x1 rv). set (x2 := with_b x1 (mkSide (s_regs (c_b x1)) (Some rv))).
  assert (E2 : nth_error (w_circ w2) c = Some x2) by (eapply set_nth_same; eauto).
  assert (Hd : (if Nat.eqb (stop (core rv)) 0 then ret false
                else lift (count (core rv) (match a with AItem q => IBit q | _ => INone end))) w2
               = (w2, Ok (match a with AItem q => inb (IBit q) (circuit_bits x1) | _ => false end))).
  { destruct (Nat.eqb_spec (stop (core rv)) 0) as [Hz|Hz].
    - rewrite (stop_contents rv Rv), Cv in Hz. destruct (circuit_bits x1); [|discriminate].
      destruct a; reflexivity.
    - unfold lift. f_equal. destruct a; try congruence.
      + rewrite (count_none rv Rv). f_equal. apply inb_false. intros H. rewrite Forall_forall in Gv.
        apply Gv in H. destruct H as (q & H & _). discriminate.
      + rewrite (count_prim rv _ Rv) by (right; eexists; reflexivity). now rewrite Cv. }
  assert (Hr : dget label_eqb l' (s_regs (c_b x2)) = Some r) by apply Hch.
  pose proof (so_regs _ _ Hx1) as Rs.
  destruct (regs_ok_get _ _ _ _ Rs (proj1 Hch)) as (Rr & Fr & Ir).
  assert (Tr : tidy (contents r)).
  { apply (tidy_good (gb (List.length (w_bit w)))); [intros v; apply gb_prim|].
    apply Forall_forall. intros v Hv. pose proof (ro_good _ _ Rs) as G. rewrite Forall_forall in G. auto. }
  assert (Lr : List.length (contents r) <= List.length (w_bit w)).
  { etransitivity; [apply (regs_ok_length _ _ _ _ Rs (proj1 Hch))|].
    apply gb_bound; [apply (ro_nodup _ _ Rs)|apply (ro_good _ _ Rs)]. }
  assert (Lw : ssize_ok (zn (List.length (contents r)) + 1) = true) by (eapply ssize_le; [exact Lr|apply Sw]).
  set (q := match bit_used w a with Some b => b | None => List.length (w_bit w) end).
  set (ls := match bit_used w a with Some _ => [] | None => [(LStr (py_str (List.length (circuit_bits x1))), @None bool)] end).
  (* the part after the duplicate check *)
  assert (Main : (forall q, a = AItem q -> ~ In (IBit q) (circuit_bits x1)) ->
    added_bit c a w w1 x1 l' r
     ((let! y := get_circ c in
      let! r := regget l' (c_b y) in
      let! given := read (fun w => match a with AItem b => bit_true w b | _ => false end) in
      let! b := match a with
                | AItem b => if given then ret b
                             else let! k := num_bits c in new_bit (LStr (py_str k))
                | _ => let! k := num_bits c in new_bit (LStr (py_str k))
                end in
      let! bs := read (@w_bit P) in
      let (r', o) := add (numeq bs) r [IBit b] in
      put_creg c l' r' ;; lift o ;;
      drop_bcache c) w2)).
  { intros Hnew.
    rewrite (bind_ok _ _ _ _ _ _ (get_circ_some _ c w2 x2 E2)).
    unfold regget. rewrite Hr. unfold mbind at 1. cbn [ret].
    unfold read at 1. unfold mbind at 1.
    assert (Efresh : (let! k := num_bits c in new_bit (LStr (py_str k))) w2 =
        (set_bit w2 (w_bit w ++ [(LStr (py_str (List.length (circuit_bits x1))), None)]), Ok (List.length (w_bit w)))).
    { assert (Ej : JB P w2).
      { apply JB_put; auto. constructor; [exact Rs|]. intros r0 [= <-]. auto. }
      destruct (bits_run P c w2 x2 Ej Sw1 E2) as (rv' & _ & Ev' & Rv' & _ & _ & Kv').
      rewrite (Kv' rv eq_refl) in Ev'.
      unfold num_bits. rewrite (bind_ok P _ _ w2 w2 (stop (core rv))).
      + unfold new_bit. now rewrite (stop_contents rv Rv), Cv.
      + rewrite (bind_ok _ _ _ _ _ _ Ev'). unfold ret. f_equal.
        unfold cached_b. apply set_circ_id. exact E2. }
    assert (Eq : (match a with
                | AItem b => if match a with AItem b => bit_true w2 b | _ => false end then ret b
                             else let! k := num_bits c in new_bit (LStr (py_str k))
                | _ => let! k := num_bits c in new_bit (LStr (py_str k))
                end) w2 = (set_bit w2 (w_bit w ++ ls), Ok q)).
    { destruct a as [|q0|]; try congruence.
      - exact Efresh.
      - unfold ls, q, bit_used. change (bit_true w2 q0) with (bit_true w q0).
        destruct (bit_true w q0); [|exact Efresh]. unfold ret. rewrite app_nil_r. reflexivity. }
    rewrite (bind_ok _ _ _ _ _ _ Eq).
    unfold read, mbind at 1.
    set (w3 := set_bit w2 (w_bit w ++ ls)).
    assert (E3 : nth_error (w_circ w3) c = Some x2) by exact E2.
    assert (Hnq : ~ In (IBit q) (contents r)).
    { intros Hi. apply Ir in Hi. pose proof (ro_good _ _ Rs) as G. rewrite Forall_forall in G.
      pose proof (G _ Hi) as (q' & [= Eqq] & H). destruct a as [|q0|]; try congruence.
      - unfold q in Eqq. simpl in Eqq. lia.
      - unfold q, bit_used in *. destruct (bit_true w q0); [|lia]. apply (Hnew q0 eq_refl). exact Hi. }
    destruct (frozen_ r) as [[|]|] eqn:Ef; [| |congruence].
    - rewrite add_frozen by exact Ef. unfold put_creg.
      rewrite (bind_ok _ _ _ _ _ _ (upd_circ_run _ _ _ _ _ E3)). unfold lift, mbind.
      rewrite (dset_same _ _ _ Hr).
      match goal with |- added_bit _ _ _ _ _ _ _ (?W, _) =>
        replace W with (set_bit (cached_b P w1 c x1 rv) (w_bit w ++ ls)) end.
      { apply ab_frozen; auto. }
      unfold w3, w2, cached_b, w1. cbn. rewrite !set_nth_set_nth. destruct w; reflexivity.
    - destruct (add_fresh (w_bit w3) r (IBit q) Rr Tr) as (r' & Ea & Rr' & Fr' & Cr'); auto.
      { right. eexists; reflexivity. }
      rewrite Ea.
      unfold put_creg. rewrite (bind_ok _ _ _ _ _ _ (upd_circ_run _ _ _ _ _ E3)).
      unfold lift at 1. unfold mbind at 1. unfold drop_bcache.
      erewrite upd_circ_run by (cbn; eapply set_nth_same; exact E2).
      match goal with |- added_bit _ _ _ _ _ _ _ (?W, _) =>
        replace W with
         (set_bit (set_circ w1 (set_nth c (with_b x1 (mkSide (dset label_eqb l' r' (s_regs (c_b x1))) None)) (w_circ w)))
                 (w_bit w ++ ls)) end.
      { apply ab_ok with (b := q); auto. }
      cbn. rewrite !set_nth_set_nth. destruct w; reflexivity. }
  unfold add_bit.
  assert (Ex : bit_exists a w = (w, Ok tt)).
  { destruct a as [|q0|]; try congruence; [reflexivity|]. cbn. specialize (Hq q0 eq_refl).
    apply nth_error_Some in Hq. destruct (nth_error (w_bit w) q0); [reflexivity|congruence]. }
  assert (G : added_bit c a w w1 x1 l' r
    ((let! v := bits c in
    let! dup := if Nat.eqb (stop (core v)) 0 then ret false
                else lift (count (core v) (match a with AItem q => IBit q | _ => INone end)) in
    if dup then raise ValueError
    else
      let! y := get_circ c in
      let! r := regget l' (c_b y) in
      let! given := read (fun w => match a with AItem b => bit_true w b | _ => false end) in
      let! b := match a with
                | AItem b => if given then ret b
                             else let! k := num_bits c in new_bit (LStr (py_str k))
                | _ => let! k := num_bits c in new_bit (LStr (py_str k))
                end in
      let! bs := read (@w_bit P) in
      let (r', o) := add (numeq bs) r [IBit b] in
      put_creg c l' r' ;; lift o ;;
      drop_bcache c) w1)).
  { rewrite (bind_ok _ _ _ _ _ _ Ev). rewrite (bind_ok _ _ _ _ _ _ Hd).
    destruct a as [|q0|]; try congruence.
    - apply Main. intros q0 H. discriminate.
    - destruct (inb (IBit q0) (circuit_bits x1)) eqn:Ei.
      + apply inb_In in Ei. unfold raise. apply ab_dup with (b := q0); auto.
      + apply inb_false in Ei. apply Main. intros q1 [= <-]. exact Ei. }
  destruct a as [|q0|]; try congruence; rewrite (bind_ok _ _ _ _ _ _ Ex), (bind_ok _ _ _ _ _ _ (get_circ_some _ c w x E));
    fold (cpre c x l); rewrite (bind_ok _ _ _ _ _ _ Ep); exact G.
Qed.
End Add.

(** The calls that change registers keep the structure of circuits; so does every program. *)
From Coq Require Import List ZArith String Bool Arith Lia.
From Verif Require Import Py RegisterModel RegisterSpec RegisterProofs WorldModel WorldSpec WorldReg WorldInv WorldInv2 WorldInv3 WorldInv4 WorldInv5.
Import ListNotations.
Local Open Scope nat_scope.

Lemma freeze_items l r rs : dget label_eqb l rs = Some r ->
  all_items (dset label_eqb l (freeze r) rs) = all_items rs.
Proof.
  intros H. destruct (dget_split _ _ _ H) as (a & b & -> & Hs). rewrite Hs, !all_items_app. reflexivity.
Qed.

Lemma freeze_ok good s l r : side_ok good s -> dget label_eqb l (s_regs s) = Some r ->
  side_ok good (mkSide (dset label_eqb l (freeze r) (s_regs s)) (s_cache s)).
Proof.
  intros [A B] H. destruct (regs_ok_get _ _ _ _ A H) as (Rr & Fr & _). constructor; cbn [s_regs s_cache].
  - eapply regs_ok_set; eauto; [discriminate|]. exists []. rewrite app_nil_r.
    split; [reflexivity|]. split; [constructor|]. split; [constructor|]. easy.
  - intros r' Hr. destruct (B r' Hr) as (R & G & K). split; [auto|split; [auto|]].
    intros Hne. rewrite (freeze_items _ _ _ H). apply K. intros E. rewrite E in H. discriminate.
Qed.

Section Keep.
Variable P : Type.
Variable ptrue : P -> bool.
Variable peqb : P -> P -> bool.
Notation world := (world P).
Notation M := (M P).

Lemma keeps_grows I {A} (m : M A) : keeps P I m -> grows P m.
Proof. now intros []. Qed.

(** ** Growth *)
Ltac grow_step := first [ apply grows_ret | apply grows_raise | apply grows_lift
  | apply grows_read | apply grows_get_circ | apply grows_upd_circ
  | apply grows_new_qubit | apply grows_new_bit | apply grows_num_qubits | apply grows_num_bits
  | apply grows_qubits | apply grows_bits | apply grows_add_qregister | apply grows_add_cregister
  | apply grows_add_qubit | apply grows_add_bit
  | apply grows_regget | apply grows_first_label | apply grows_when | apply grows_iterM; intros ?
  | match goal with |- grows _ (match ?b with _ => _ end) => destruct b end
  | apply grows_bind; [|intros ?] ].

Lemma grows_bit_reset b : grows P (@bit_reset P b).
Proof.
  intros w. unfold bit_reset. destruct (nth_error (w_bit w) b) as [[l v]|]; [|apply mono_refl].
  split; cbn; [lia|]. rewrite set_nth_length. lia.
Qed.
Lemma grows_bit_set b v f : grows P (@bit_set P b v f).
Proof.
  intros w. unfold bit_set. destruct (nth_error (w_bit w) b) as [[l o]|]; [|apply mono_refl].
  destruct o as [o|]; [destruct f; cbn [negb]|]; try apply mono_refl;
    split; cbn; try lia; rewrite set_nth_length; lia.
Qed.
Lemma grows_item_reset v : grows P (@item_reset P v).
Proof. destruct v; simpl; try apply grows_raise. apply grows_bit_reset. Qed.
Lemma grows_new_circuit par nq nb : grows P (@new_circuit P par nq nb).
Proof.
  unfold new_circuit. apply grows_bind; [apply grows_read|]. intros c.
  apply grows_bind; [apply grows_eq; auto|]. intros _. repeat grow_step.
Qed.
Lemma grows_unlock c : grows P (@unlock P c).
Proof. apply grows_upd_circ. Qed.
Lemma grows_reset c k : grows P (@reset P c k).
Proof. unfold reset. repeat first [apply grows_item_reset | apply grows_unlock | grow_step]. Qed.

Lemma true_same : forall w w' : world, same P w w' -> True -> True.
Proof. auto. Qed.

Lemma grows_do_call x : grows P (do_call ptrue peqb x).
Proof.
  destruct (plain_call P x) eqn:E.
  - apply (keeps_grows (fun _ => True)). apply k_do_call; auto; intros c; split; auto using grows_qubits, grows_bits.
  - destruct x; try discriminate E; cbn [do_call]; unfold unit_of, qreg_add, creg_add, qreg_freeze, creg_freeze;
      repeat first [apply grows_new_circuit | apply grows_reset | apply grows_bit_set | apply grows_bit_reset | grow_step].
Qed.

(** ** The quantum half *)

Lemma keepsQ_add_qregister c n l : keeps P (JQ P) (@add_qregister P c n l).
Proof.
  split; [apply grows_add_qregister|]. intros w S Hj.
  assert (Sw : small P w) by (eapply small_mono; [apply grows_add_qregister|exact S]).
  destruct (nth_error (w_circ w) c) as [x|] eqn:E.
  2: { unfold add_qregister. rewrite (bind_err _ _ _ _ _ _ (get_circ_none _ c w E)). exact Hj. }
  destruct (dget label_eqb (qlabel x l) (s_regs (c_q x))) as [r|] eqn:El.
  { rewrite (add_qregister_taken P c n l w x r E El). exact Hj. }
  destruct (ssize_ok (zn (List.length (w_qubit w) + n) + 1)) eqn:Room.
  - destruct (add_qregister_run P c n l w x Hj Sw Room E El) as (k & r & Er & Rr & Cr & Fr & _).
    rewrite Er. cbn [fst]. unfold JQ. cbn [w_qubit set_circ set_qubit w_circ].
    rewrite set_nth_map. rewrite app_length, map_length, seq_length. apply set_nth_Forall.
    + eapply Forall_impl; [|exact Hj]. intros s. apply side_ok_weaken. intros v. apply gq_mono. lia.
    + pose proof (JQ_nth _ _ _ _ Hj E) as [A B]. unfold more_q. cbn. constructor; cbn; [|discriminate].
      apply regs_ok_snoc; auto.
      * eapply regs_ok_weaken; [|exact A]. intros v. apply gq_mono. lia.
      * rewrite Cr. apply gq_seq.
      * intros v Hv Hi. rewrite Cr in Hv. apply in_map_iff in Hv. destruct Hv as (q & <- & Hq).
        apply in_seq in Hq. pose proof (ro_good _ _ A) as G. rewrite Forall_forall in G. apply G in Hi.
        destruct Hi as (q' & [= <-] & H). lia.
      * rewrite Fr. discriminate.
  - exfalso. destruct (qubits_run P c w x Hj Sw E) as (rv & Ev & _).
    unfold add_qregister in S. rewrite (bind_ok _ _ _ _ _ _ (get_circ_some _ c w x E)) in S.
    fold (qlabel x l) in S. unfold regmem, dmem in S. rewrite El in S.
    unfold num_qubits in S. rewrite (bind_ok P _ _ w (cached_q P w c x rv) (stop (core rv))) in S
      by (rewrite (bind_ok _ _ _ _ _ _ Ev); reflexivity).
    rewrite (bind_ok _ _ _ _ _ _ (new_qubits_run P n (stop (core rv)) (cached_q P w c x rv))) in S.
    match type of S with small _ (fst (?m ?v)) =>
      assert (G : grows P m) by (repeat grow_step); pose proof (small_mono _ _ _ (G v) S) as [S1 _] end.
    cbn in S1. rewrite app_length, map_length, seq_length in S1. congruence.
Qed.

Lemma keepsQ_add_qubit c a l : keeps P (JQ P) (@add_qubit P c a l).
Proof.
  split; [apply grows_add_qubit|]. intros w S Hj.
  assert (Sw : small P w) by (eapply small_mono; [apply grows_add_qubit|exact S]).
  destruct (nth_error (w_circ w) c) as [x|] eqn:E.
  2: { unfold add_qubit. destruct a; cbn; auto; unfold mbind.
       - cbn. rewrite (get_circ_none _ c w E). exact Hj.
       - cbn. destruct (nth_error (w_qubit w) i); cbn; [|exact Hj]. rewrite (get_circ_none _ c w E). exact Hj. }
  assert (H : a = ABad \/ (exists q, a = AItem q /\ List.length (w_qubit w) <= q) \/
              (a <> ABad /\ forall q, a = AItem q -> q < List.length (w_qubit w))).
  { destruct a as [|q|]; auto.
    - right; right. split; [discriminate|]. discriminate.
    - destruct (le_lt_dec (List.length (w_qubit w)) q); [right; left; eauto|].
      right; right. split; [discriminate|]. now intros q' [= <-]. }
  destruct H as [->|[(q & -> & Hq)|[Ha Hq]]].
  - exact Hj.
  - unfold add_qubit. apply nth_error_None in Hq.
    assert (Eq : qubit_exists (AItem q) w = (w, Err Undefined)) by (cbn; rewrite Hq; reflexivity).
    rewrite (bind_err _ _ _ _ _ _ Eq). exact Hj.
  - destruct (add_qubit_run P c a l w x Hj Sw E Ha Hq) as (s & l' & r & Hch & Hs & Hout).
    pose proof (JQ_nth _ _ _ _ Hj E) as Hx.
    pose proof (chosen_ok _ _ _ _ _ _ _ Hx Hch Hs) as Hx1.
    assert (Hj1 : JQ P (set_circ w (set_nth c (with_q x s) (w_circ w)))) by (apply JQ_put; auto).
    assert (E1 : nth_error (w_circ (set_circ w (set_nth c (with_q x s) (w_circ w)))) c = Some (with_q x s))
      by (cbn; eapply set_nth_same; eauto).
    assert (Hne := chosen_nonempty _ _ _ _ _ _ Hch).
    assert (Kc : forall rv, regok rv -> contents rv = circuit_qubits (with_q x s) ->
       JQ P (cached_q P (set_circ w (set_nth c (with_q x s) (w_circ w))) c (with_q x s) rv)).
    { intros rv Rv Cv. apply JQ_put; auto. pose proof Hx1 as [A1 B1]. constructor; [exact A1|].
      cbn. intros r' [= <-]. split; [auto|]. rewrite Cv. split; [apply (ro_good _ _ A1)|reflexivity]. }
    assert (Kw : forall w' : world, JQ P w' -> forall ls, w_qubit w' = w_qubit w -> JQ P (set_qubit w' (w_qubit w ++ ls))).
    { intros w' H ls Ew. apply (JQ_mono _ w'); auto. cbn. rewrite Ew, app_length. lia. }
    destruct Hout as [q rv _ _ Rv Cv|rv ls _ _ _ Rv Cv|q ls r' Hnew Fr Eq El Rr' Fr' Cr']; cbn [fst].
    + apply Kc; auto.
    + apply Kw; [apply Kc; auto|reflexivity].
    + unfold JQ. cbn [w_circ set_qubit set_circ w_qubit]. rewrite set_nth_map. apply set_nth_Forall.
      * eapply Forall_impl; [|exact Hj]. intros s0. apply side_ok_weaken. intros v. apply gq_mono.
        rewrite app_length. lia.
      * cbn. pose proof Hx1 as [A1 _]. constructor; cbn; [|discriminate].
        assert (Hql : q < List.length (w_qubit w ++ ls)).
        { rewrite app_length. subst q ls. destruct a as [|q0|]; try congruence; simpl; [lia|].
          specialize (Hq q0 eq_refl). lia. }
        apply regs_ok_set with (r := r); auto.
        -- eapply regs_ok_weaken; [|exact A1]. intros v. apply gq_mono. rewrite app_length. lia.
        -- apply Hch.
        -- rewrite Fr'. discriminate.
        -- exists [IQubit q]. split; [exact Cr'|]. split; [|split].
           ++ constructor; [|constructor]. exists q. auto.
           ++ constructor; [easy|constructor].
           ++ intros u [<-|[]] Hi. destruct a as [|q0|]; try congruence.
              ** pose proof (ro_good _ _ A1) as G. rewrite Forall_forall in G. apply G in Hi.
                 destruct Hi as (q' & [= <-] & H). subst q. lia.
              ** subst q. apply (Hnew q0 eq_refl). exact Hi.
Qed.

Lemma keepsQ_upd_circ c f : (forall x, c_q (f x) = c_q x) -> keeps P (JQ P) (@upd_circ P c f).
Proof.
  intros H. split; [apply grows_upd_circ|]. intros w _ Hj. destruct (nth_error (w_circ w) c) as [x|] eqn:E.
  - rewrite (upd_circ_run _ c f w x E). cbn [fst]. apply (JQ_mono _ w); auto. cbn. eapply map_set_nth_same; eauto.
  - unfold upd_circ. rewrite (bind_err _ _ _ _ _ _ (get_circ_none _ c w E)). exact Hj.
Qed.

Ltac kq_step := first
  [ apply keeps_ret; exact (JQ_same P) | apply keeps_raise; exact (JQ_same P) | apply keeps_lift; exact (JQ_same P)
  | apply keeps_read; exact (JQ_same P) | apply keeps_get_circ; exact (JQ_same P)
  | apply keepsQ_qubits | apply keepsQ_bits | apply keepsQ_set_qubit | apply keepsQ_set_bit
  | apply keepsQ_add_qregister | apply keepsQ_add_qubit | apply keepsQ_new_qubits
  | apply keeps_when; [exact (JQ_same P)|] | apply keeps_iterM; [exact (JQ_same P)|intros ?]
  | apply keepsQ_upd_circ; [intros ?; reflexivity]
  | match goal with |- keeps _ _ (match ?b with _ => _ end) => destruct b end
  | apply keeps_bind; [|intros ?] ].

Lemma keepsQ_new_bits n a : keeps P (JQ P) (@new_bits P a n).
Proof. split; intros w; rewrite new_bits_run; cbn; [apply mono_set_bit|]. auto. Qed.
Lemma keepsQ_add_cregister c n l : keeps P (JQ P) (@add_cregister P c n l).
Proof. unfold add_cregister, num_bits. repeat first [apply keepsQ_new_bits | kq_step]. Qed.
Lemma keepsQ_bit_exists a : keeps P (JQ P) (@bit_exists P a).
Proof.
  apply keeps_same; [exact (JQ_same P)|]. intros w. destruct a; cbn; try apply same_refl.
  unfold mbind. destruct (nth_error (w_bit w) i); cbn; apply same_refl.
Qed.
Lemma keepsQ_add_bit c a l : keeps P (JQ P) (@add_bit P c a l).
Proof.
  unfold add_bit, first_label, regget. repeat first [apply keepsQ_add_cregister | apply keepsQ_bit_exists | kq_step].
Qed.
Lemma keepsQ_qreg_freeze c l : keeps P (JQ P) (@qreg_freeze P c l).
Proof.
  split; [unfold qreg_freeze; repeat grow_step|]. intros w _ Hj. unfold qreg_freeze.
  destruct (nth_error (w_circ w) c) as [x|] eqn:E; [rewrite (bind_ok _ _ _ _ _ _ (get_circ_some _ c w x E))
    |rewrite (bind_err _ _ _ _ _ _ (get_circ_none _ c w E)); exact Hj].
  unfold regget. destruct (dget label_eqb l (s_regs (c_q x))) as [r|] eqn:El; [|exact Hj].
  unfold mbind at 1. cbn [ret]. unfold put_qreg. rewrite (upd_circ_run _ _ _ w x E). cbn [fst].
  apply JQ_put; auto. apply freeze_ok; auto. now apply JQ_nth with (c := c).
Qed.
Lemma keepsQ_creg_freeze c l : keeps P (JQ P) (@creg_freeze P c l).
Proof. unfold creg_freeze, put_creg. repeat kq_step. unfold regget. repeat kq_step. Qed.
Lemma keepsQ_bit_reset b : keeps P (JQ P) (@bit_reset P b).
Proof.
  split; [apply grows_bit_reset|]. intros w _ Hj. unfold bit_reset.
  destruct (nth_error (w_bit w) b) as [[l v]|]; exact Hj.
Qed.
Lemma keepsQ_bit_set b v f : keeps P (JQ P) (@bit_set P b v f).
Proof.
  split; [apply grows_bit_set|]. intros w _ Hj. unfold bit_set.
  destruct (nth_error (w_bit w) b) as [[l o]|]; [|exact Hj].
  destruct o; [destruct f|]; exact Hj.
Qed.
Lemma side_ok_empty good : side_ok good (mkSide [] None).
Proof. constructor; cbn; [apply regs_ok_nil|discriminate]. Qed.
Lemma keepsQ_new_circuit par nq nb : keeps P (JQ P) (@new_circuit P par nq nb).
Proof.
  unfold new_circuit. apply keeps_bind; [repeat kq_step|]. intros c.
  apply keeps_bind.
  { split; [apply grows_eq; auto|]. intros w _ Hj. unfold JQ. cbn. rewrite map_app. apply Forall_app.
    split; [exact Hj|]. constructor; [apply side_ok_empty|constructor]. }
  intros _. repeat first [apply keepsQ_add_cregister | kq_step].
Qed.
Lemma side_ok_drop good s : side_ok good s -> side_ok good (mkSide [] (s_cache s)).
Proof.
  intros [A B]. constructor; cbn; [apply regs_ok_nil|]. intros r Hr. destruct (B r Hr) as (R & G & _).
  split; [auto|split; [auto|congruence]].
Qed.
Lemma keepsQ_reset c k : keeps P (JQ P) (@reset P c k).
Proof.
  unfold reset. apply keeps_bind; [repeat kq_step|]. intros _. apply keeps_bind.
  - destruct k.
    + repeat kq_step. destruct a1; simpl; repeat kq_step. apply keepsQ_bit_reset.
    + split; [apply grows_upd_circ|]. intros w _ Hj. destruct (nth_error (w_circ w) c) as [x|] eqn:E.
      * rewrite (upd_circ_run _ _ _ w x E). cbn [fst]. unfold JQ. cbn. rewrite set_nth_map.
        apply set_nth_Forall; [exact Hj|]. cbn. apply side_ok_drop. eapply JQ_nth; eauto.
      * unfold upd_circ. rewrite (bind_err _ _ _ _ _ _ (get_circ_none _ c w E)). exact Hj.
  - intros _. apply keepsQ_upd_circ. intros x. destruct (c_par x); reflexivity.
Qed.

Lemma JQ_call w x : own_methods P w x -> small P (fst (do_call ptrue peqb x w)) -> JQ P w ->
  JQ P (fst (do_call ptrue peqb x w)).
Proof.
  intros Ho S Hj. destruct (plain_call P x) eqn:E.
  - apply (k_do_call P ptrue peqb (JQ P) (JQ_same P) (keepsQ_qubits P) (keepsQ_bits P)); auto.
  - assert (K : keeps P (JQ P) (do_call ptrue peqb x)); [|now apply K].
    destruct x; try discriminate E; simpl in Ho; try contradiction;
      cbn [do_call]; unfold unit_of;
      repeat first [apply keepsQ_new_circuit | apply keepsQ_add_cregister | apply keepsQ_add_bit | apply keepsQ_qreg_freeze
                   | apply keepsQ_creg_freeze | apply keepsQ_reset | apply keepsQ_bit_set | apply keepsQ_bit_reset | kq_step].
Qed.

Lemma JQ_start ks : JQ P (start P ks).
Proof. constructor. Qed.

Theorem JQ_reach v : reaches P ptrue peqb (own_methods P) v -> small P v -> JQ P v.
Proof.
  intros (ks & p & He & Hv) S. revert Hv.
  eapply run_visits; eauto using JQ_same, keepsQ_qubits, keepsQ_bits, grows_do_call, JQ_call, JQ_start.
Qed.

(** ** The classical half *)

Lemma keepsB_upd_circ c f : (forall x, c_b (f x) = c_b x) -> keeps P (IB P) (@upd_circ P c f).
Proof.
  intros H. split; [apply grows_upd_circ|]. intros w _ Hj. destruct (nth_error (w_circ w) c) as [x|] eqn:E.
  - rewrite (upd_circ_run _ c f w x E). cbn [fst]. destruct Hj as [Hj Hc].
    assert (Em : map c_b (w_circ (set_circ w (set_nth c (f x) (w_circ w)))) = map c_b (w_circ w))
      by (cbn; eapply map_set_nth_same; eauto).
    split; [apply (JB_mono _ w); auto|]. revert Hc. apply clear_same; [exact Em|reflexivity].
  - unfold upd_circ. rewrite (bind_err _ _ _ _ _ _ (get_circ_none _ c w E)). exact Hj.
Qed.

Ltac kb_step := first
  [ apply keeps_ret; exact (IB_same P) | apply keeps_raise; exact (IB_same P) | apply keeps_lift; exact (IB_same P)
  | apply keeps_read; exact (IB_same P) | apply keeps_get_circ; exact (IB_same P)
  | apply keepsB_qubits | apply keepsB_bits | apply keepsB_set_qubit | apply keepsB_set_bit
  | apply keepsB_new_bits
  | apply keeps_when; [exact (IB_same P)|] | apply keeps_iterM; [exact (IB_same P)|intros ?]
  | apply keepsB_upd_circ; [intros ?; reflexivity]
  | match goal with |- keeps _ _ (match ?b with _ => _ end) => destruct b end
  | apply keeps_bind; [|intros ?] ].

Lemma keepsB_new_qubits n a : keeps P (IB P) (@new_qubits P a n).
Proof. split; intros w; rewrite new_qubits_run; cbn; [apply mono_set_qubit|]. auto. Qed.
Lemma keepsB_add_qregister c n l : keeps P (IB P) (@add_qregister P c n l).
Proof. unfold add_qregister, num_qubits. repeat first [apply keepsB_new_qubits | kb_step]. Qed.
Lemma keepsB_qubit_exists a : keeps P (IB P) (@qubit_exists P a).
Proof.
  apply keeps_same; [exact (IB_same P)|]. intros w. destruct a; cbn; try apply same_refl.
  unfold mbind. destruct (nth_error (w_qubit w) i); cbn; apply same_refl.
Qed.
Lemma keepsB_add_qubit c a l : keeps P (IB P) (@add_qubit P c a l).
Proof.
  unfold add_qubit, first_label, regget. repeat first [apply keepsB_add_qregister | apply keepsB_qubit_exists | kb_step].
Qed.
Lemma keepsB_qreg_freeze c l : keeps P (IB P) (@qreg_freeze P c l).
Proof. unfold qreg_freeze, put_qreg. repeat kb_step. unfold regget. repeat kb_step. Qed.
Lemma keepsB_creg_freeze c l : keeps P (IB P) (@creg_freeze P c l).
Proof.
  split; [unfold creg_freeze; repeat grow_step|]. intros w _ Hj. unfold creg_freeze.
  destruct (nth_error (w_circ w) c) as [x|] eqn:E; [rewrite (bind_ok _ _ _ _ _ _ (get_circ_some _ c w x E))
    |rewrite (bind_err _ _ _ _ _ _ (get_circ_none _ c w E)); exact Hj].
  unfold regget. destruct (dget label_eqb l (s_regs (c_b x))) as [r|] eqn:El; [|exact Hj].
  unfold mbind at 1. cbn [ret]. unfold put_creg. rewrite (upd_circ_run _ _ _ w x E). cbn [fst].
  destruct Hj as [Hj Hc]. split.
  - apply JB_put; auto. apply freeze_ok; auto. now apply JB_nth with (c := c).
  - apply clear_put; auto. cbn. now apply freeze_items. exact (Hc c x E).
Qed.
Lemma keepsB_bit_reset b : keeps P (IB P) (@bit_reset P b).
Proof.
  split; [apply grows_bit_reset|]. intros w _ [Hj Hc]. unfold bit_reset.
  destruct (nth_error (w_bit w) b) as [[l v]|] eqn:E; [|split; auto]. cbn [fst]. split.
  - apply (JB_mono _ w); auto. cbn. rewrite set_nth_length. lia.
  - intros c x Ex Hn i b' Hi v' Hv. apply (Hc c x Ex Hn i b' Hi v'). unfold bit_value in *. cbn in Hv.
    destruct (Nat.eq_dec b b') as [<-|H].
    + rewrite (set_nth_same _ _ _ _ E) in Hv. discriminate.
    + now rewrite set_nth_other in Hv by exact H.
Qed.

Lemma clear_snoc (w : world) c x l r k n :
  JB P w -> clear P w -> nth_error (w_circ w) c = Some x -> clear_at P w x ->
  contents r = map IBit (seq (List.length (w_bit w)) n) ->
  clear P (set_circ (set_bit w (w_bit w ++ map (fun i => (LStr (py_str i), None)) (seq k n)))
                    (set_nth c (more_b x l r) (w_circ w))).
Proof.
  intros Hj Hc E Hx Cr c' y Ey Hy i b Hi v Hv. cbn in Ey. unfold bit_value in Hv. cbn in Hv.
  assert (Hb : b < List.length (w_bit w)).
  { destruct (le_lt_dec (List.length (w_bit w)) b) as [Hb|Hb]; [|auto]. exfalso.
    rewrite nth_error_app2 in Hv by exact Hb. rewrite nth_map in Hv.
    destruct (nth_error (seq k n) (b - List.length (w_bit w))); discriminate. }
  rewrite nth_error_app1 in Hv by exact Hb. fold (bit_value P w b) in Hv.
  destruct (Nat.eq_dec c c') as [<-|Hn].
  - rewrite (set_nth_same _ _ _ _ E) in Ey. injection Ey as <-.
    change (circuit_bits (more_b x l r)) with (all_items (s_regs (c_b x) ++ [(l, r)])) in Hi.
    rewrite all_items_app in Hi. change (all_items [(l, r)]) with (contents r ++ []) in Hi.
    rewrite app_nil_r, Cr in Hi.
    destruct (le_lt_dec (List.length (circuit_bits x)) i) as [Hl|Hl].
    + unfold circuit_bits in Hl. rewrite nth_error_app2 in Hi by exact Hl.
      apply nth_error_In in Hi. apply in_map_iff in Hi. destruct Hi as (q & [= <-] & Hq). apply in_seq in Hq. lia.
    + unfold circuit_bits in Hl. rewrite nth_error_app1 in Hi by exact Hl. apply (Hx i b Hi v Hv).
  - rewrite set_nth_other in Ey by exact Hn. apply (Hc c' y Ey Hy i b Hi v Hv).
Qed.

Lemma IB_add_cregister c n l (w : world) :
  (forall x, nth_error (w_circ w) c = Some x -> clear_at P w x) ->
  small P (fst (add_cregister c n l w)) -> IB P w -> IB P (fst (add_cregister c n l w)).
Proof.
  intros Hcx S [Hj Hc].
  assert (Sw : small P w) by (eapply small_mono; [apply grows_add_cregister|exact S]).
  destruct (nth_error (w_circ w) c) as [x|] eqn:E.
  2: { unfold add_cregister. rewrite (bind_err _ _ _ _ _ _ (get_circ_none _ c w E)). split; auto. }
  destruct (dget label_eqb (clabel x l) (s_regs (c_b x))) as [r|] eqn:El.
  { rewrite (add_cregister_taken P c n l w x r E El). split; auto. }
  destruct (ssize_ok (zn (List.length (w_bit w) + n) + 1)) eqn:Room.
  - destruct (add_cregister_run P c n l w x Hj Sw Room E El) as (k & r & Er & Rr & Cr & Fr & _).
    rewrite Er. cbn [fst]. split; [|apply clear_snoc; auto].
    unfold JB. cbn [w_bit set_circ set_bit w_circ].
    rewrite set_nth_map. rewrite app_length, map_length, seq_length. apply set_nth_Forall.
    + eapply Forall_impl; [|exact Hj]. intros s. apply side_ok_weaken. intros v. apply gb_mono. lia.
    + pose proof (JB_nth _ _ _ _ Hj E) as [A B]. unfold more_b. cbn. constructor; cbn; [|discriminate].
      apply regs_ok_snoc; auto.
      * eapply regs_ok_weaken; [|exact A]. intros v. apply gb_mono. lia.
      * rewrite Cr. apply gb_seq.
      * intros v Hv Hi. rewrite Cr in Hv. apply in_map_iff in Hv. destruct Hv as (q & <- & Hq).
        apply in_seq in Hq. pose proof (ro_good _ _ A) as G. rewrite Forall_forall in G. apply G in Hi.
        destruct Hi as (q' & [= <-] & H). lia.
      * rewrite Fr. discriminate.
  - exfalso. destruct (bits_run P c w x Hj Sw E) as (rv & _ & Ev & _).
    unfold add_cregister in S. rewrite (bind_ok _ _ _ _ _ _ (get_circ_some _ c w x E)) in S.
    fold (clabel x l) in S. unfold regmem, dmem in S. rewrite El in S.
    unfold num_bits in S. rewrite (bind_ok P _ _ w (cached_b P w c x rv) (stop (core rv))) in S
      by (rewrite (bind_ok _ _ _ _ _ _ Ev); reflexivity).
    rewrite (bind_ok _ _ _ _ _ _ (new_bits_run P n (stop (core rv)) (cached_b P w c x rv))) in S.
    match type of S with small _ (fst (?m ?v)) =>
      assert (G : grows P m) by (repeat grow_step); pose proof (small_mono _ _ _ (G v) S) as [_ S1] end.
    cbn in S1. rewrite app_length, map_length, seq_length in S1. congruence.
Qed.

Definition bare (c : nat) (w : world) : Prop := forall x, nth_error (w_circ w) c = Some x -> s_regs (c_b x) = [].
Lemma bare_same c w w' : same P w w' -> bare c w -> bare c w'.
Proof.
  intros (_ & E & _) H x Ex.
  assert (H' : nth_error (map c_b (w_circ w')) c = Some (c_b x)) by now rewrite nth_map, Ex.
  rewrite E, nth_map in H'. destruct (nth_error (w_circ w) c) as [y|] eqn:Ey; [|discriminate].
  injection H' as H'. rewrite <- H'. now apply H.
Qed.
Lemma bare_upd c d f : (forall x, c_b (f x) = c_b x) -> keeps P (bare c) (@upd_circ P d f).
Proof.
  intros H. split; [apply grows_upd_circ|]. intros w _ Hj. destruct (nth_error (w_circ w) d) as [x|] eqn:E.
  - rewrite (upd_circ_run _ d f w x E). cbn [fst]. intros y Ey. cbn in Ey. destruct (Nat.eq_dec d c) as [->|Hn].
    + rewrite (set_nth_same _ _ _ _ E) in Ey. injection Ey as <-. rewrite H. now apply Hj.
    + rewrite set_nth_other in Ey by exact Hn. now apply Hj.
  - unfold upd_circ. rewrite (bind_err _ _ _ _ _ _ (get_circ_none _ d w E)). exact Hj.
Qed.
Lemma bare_qubits c d : keeps P (bare c) (@qubits P d).
Proof.
  split; [apply grows_qubits|]. intros w _ Hj. destruct (qubits_any P d w) as [->|(x & r & E & ->)]; [exact Hj|].
  intros y Ey. cbn in Ey. destruct (Nat.eq_dec d c) as [->|Hn].
  - rewrite (set_nth_same _ _ _ _ E) in Ey. injection Ey as <-. now apply (Hj x).
  - rewrite set_nth_other in Ey by exact Hn. now apply Hj.
Qed.
Lemma bare_new_qubits c n a : keeps P (bare c) (@new_qubits P a n).
Proof. split; intros w; rewrite new_qubits_run; cbn; [apply mono_set_qubit|]. intros _ H. exact H. Qed.
Lemma bare_add_qregister c d n l : keeps P (bare c) (@add_qregister P d n l).
Proof.
  unfold add_qregister, num_qubits. cbv zeta. repeat first
  [ apply keeps_ret; exact (bare_same c) | apply keeps_raise; exact (bare_same c) | apply keeps_lift; exact (bare_same c)
  | apply keeps_read; exact (bare_same c) | apply keeps_get_circ; exact (bare_same c)
  | apply bare_qubits | apply bare_new_qubits
  | apply bare_upd; [intros ?; reflexivity]
  | match goal with |- keeps _ _ (match ?b with _ => _ end) => destruct b end
  | apply keeps_bind; [|intros ?] ].
Qed.

Lemma keepsB_new_circuit par nq nb : keeps P (IB P) (@new_circuit P par nq nb).
Proof.
  split; [apply grows_new_circuit|]. unfold new_circuit. intros w S [Hj Hc]. unfold read in *.
  match goal with |- IB _ (fst ((let! c := ?m in ?k) w)) => change ((let! c := m in k) w) with
    (((fun w0 : world => (set_circ w0 (w_circ w0 ++ [mkCirc [] (mkSide [] None) (mkSide [] None) false None par [] false]), Ok tt)) ;;
  match nq with Some n => add_qregister (List.length (w_circ w)) n LNone | None => ret tt end ;;
  match nb with Some n => add_cregister (List.length (w_circ w)) n LNone | None => ret tt end ;;
  ret (List.length (w_circ w))) w) in * end.
  set (c := List.length (w_circ w)) in *.
  unfold mbind at 1. unfold mbind at 1 in S.
  set (w1 := set_circ w _) in *.
  assert (I1 : IB P w1 /\ bare c w1).
  { unfold w1. split; [split|].
    - unfold JB. cbn. rewrite map_app. apply Forall_app.
      split; [exact Hj|]. constructor; [apply side_ok_empty|constructor].
    - intros c' x Ex Hn i b Hi. cbn in Ex. destruct (le_lt_dec (List.length (w_circ w)) c') as [Hl|Hl].
      + rewrite nth_error_app2 in Ex by exact Hl. destruct (c' - List.length (w_circ w)) as [|[|k]]; try discriminate Ex.
        cbn in Ex. injection Ex as <-. cbn in Hi. destruct i; discriminate.
      + rewrite nth_error_app1 in Ex by exact Hl. apply (Hc c' x Ex Hn i b Hi).
    - intros x Ex. cbn in Ex. unfold c in Ex. rewrite nth_error_app2 in Ex by apply le_n.
      rewrite Nat.sub_diag in Ex. cbn in Ex. injection Ex as <-. reflexivity. }
  assert (K1 : keeps P (fun w => IB P w /\ bare c w) (match nq with Some n => add_qregister c n LNone | None => ret tt end)).
  { destruct nq as [n|].
    - split; [apply grows_add_qregister|]. intros v Sv [A B].
      split; [now apply keepsB_add_qregister|now apply bare_add_qregister].
    - apply keeps_ret. intros a b H [A B]. split; [eapply IB_same; eauto|eapply bare_same; eauto]. }
  destruct K1 as [_ K1]. specialize (K1 w1). unfold mbind at 1. unfold mbind at 1 in S.
  destruct (match nq with Some n => add_qregister c n LNone | None => ret tt end w1) as [w2 [u|e]]; cbn [fst] in K1 |- *.
  2: { now apply K1. }
  assert (G : grows P (match nb with Some n => add_cregister c n LNone | None => ret tt end))
    by (destruct nb; [apply grows_add_cregister|apply grows_ret]).
  specialize (G w2). unfold mbind. unfold mbind in S.
  assert (S2 : small P (fst (match nb with Some n => add_cregister c n LNone | None => ret tt end w2))).
  { destruct (match nb with Some n => add_cregister c n LNone | None => ret tt end w2) as [w3 [u'|e]]; exact S. }
  assert (S1 : small P w2) by (eapply small_mono; [exact G|exact S2]).
  destruct (K1 S1 I1) as [A B].
  assert (IB P (fst (match nb with Some n => add_cregister c n LNone | None => ret tt end w2))).
  { destruct nb as [n|]; [|exact A]. apply IB_add_cregister; auto. intros x Ex i b Hi.
    unfold circuit_bits in Hi. rewrite (B x Ex) in Hi. destruct i; discriminate. }
  destruct (match nb with Some n => add_cregister c n LNone | None => ret tt end w2) as [w3 [u'|e]]; assumption.
Qed.

Lemma keepsB_reset c k : keeps P (IB P) (@reset P c k).
Proof.
  unfold reset. apply keeps_bind; [repeat kb_step|]. intros _. apply keeps_bind.
  - destruct k.
    + repeat kb_step. destruct a1; simpl; repeat kb_step. apply keepsB_bit_reset.
    + split; [apply grows_upd_circ|]. intros w _ [Hj Hc]. destruct (nth_error (w_circ w) c) as [x|] eqn:E.
      * rewrite (upd_circ_run _ _ _ w x E). cbn [fst]. split.
        -- unfold JB. cbn. rewrite set_nth_map.
           apply set_nth_Forall; [exact Hj|]. cbn. apply side_ok_drop. eapply JB_nth; eauto.
        -- intros c' y Ey Hy i b Hi. cbn in Ey. destruct (Nat.eq_dec c c') as [<-|Hn].
           ++ rewrite (set_nth_same _ _ _ _ E) in Ey. injection Ey as <-. destruct i; discriminate Hi.
           ++ rewrite set_nth_other in Ey by exact Hn. apply (Hc c' y Ey Hy i b Hi).
      * unfold upd_circ. rewrite (bind_err _ _ _ _ _ _ (get_circ_none _ c w E)). split; auto.
  - intros _. apply keepsB_upd_circ. intros x. destruct (c_par x); reflexivity.
Qed.

Lemma JB_add_bit (w : world) c a l :
  unset_bits_added P w (CAddBit P c a l) -> (forall x, nth_error (w_circ w) c = Some x -> clear_at P w x) ->
  small P (fst (add_bit c a l w)) -> JB P w -> JB P (fst (add_bit c a l w)).
Proof.
  intros Hu Hcl S Hj.
  assert (Sw : small P w) by (eapply small_mono; [apply grows_add_bit|exact S]).
  destruct (nth_error (w_circ w) c) as [x|] eqn:E.
  2: { unfold add_bit. destruct a; cbn; auto; unfold mbind.
       - cbn. rewrite (get_circ_none _ c w E). exact Hj.
       - cbn. destruct (nth_error (w_bit w) i); cbn; [|exact Hj]. rewrite (get_circ_none _ c w E). exact Hj. }
  assert (H : a = ABad \/ (exists q, a = AItem q /\ List.length (w_bit w) <= q) \/
              (a <> ABad /\ forall q, a = AItem q -> q < List.length (w_bit w))).
  { destruct a as [|q|]; auto.
    - right; right. split; [discriminate|]. discriminate.
    - destruct (le_lt_dec (List.length (w_bit w)) q); [right; left; eauto|].
      right; right. split; [discriminate|]. now intros q' [= <-]. }
  destruct H as [->|[(q & -> & Hq)|[Ha Hq]]].
  - exact Hj.
  - unfold add_bit. apply nth_error_None in Hq.
    assert (Eq : bit_exists (AItem q) w = (w, Err Undefined)) by (cbn; rewrite Hq; reflexivity).
    rewrite (bind_err _ _ _ _ _ _ Eq). exact Hj.
  - destruct (add_bit_run P c a l w x Hj Sw E (Hcl x eq_refl) Ha Hq) as (s & l' & r & Hch & Hs & Hout).
    pose proof (JB_nth _ _ _ _ Hj E) as Hx.
    pose proof (chosen_ok _ _ _ _ _ _ _ Hx Hch Hs) as Hx1.
    assert (Hj1 : JB P (set_circ w (set_nth c (with_b x s) (w_circ w)))) by (apply JB_put; auto).
    assert (E1 : nth_error (w_circ (set_circ w (set_nth c (with_b x s) (w_circ w)))) c = Some (with_b x s))
      by (cbn; eapply set_nth_same; eauto).
    assert (Hne := chosen_nonempty _ _ _ _ _ _ Hch).
    assert (Kc : forall rv, regok rv -> contents rv = circuit_bits (with_b x s) ->
       JB P (cached_b P (set_circ w (set_nth c (with_b x s) (w_circ w))) c (with_b x s) rv)).
    { intros rv Rv Cv. apply JB_put; auto. pose proof Hx1 as [A1 B1]. constructor; [exact A1|].
      cbn. intros r' [= <-]. split; [auto|]. rewrite Cv. split; [apply (ro_good _ _ A1)|reflexivity]. }
    assert (Kw : forall w' : world, JB P w' -> forall ls, w_bit w' = w_bit w -> JB P (set_bit w' (w_bit w ++ ls))).
    { intros w' H ls Ew. apply (JB_mono _ w'); auto. cbn. rewrite Ew, app_length. lia. }
    destruct Hout as [q rv _ _ Rv Cv|rv ls _ _ _ Rv Cv|q ls r' Hnew Fr Eq El Rr' Fr' Cr']; cbn [fst].
    + apply Kc; auto.
    + apply Kw; [apply Kc; auto|reflexivity].
    + assert (Hql : q < List.length (w_bit w ++ ls)).
      { rewrite app_length. subst q ls. unfold bit_used. destruct a as [|q0|]; try congruence; simpl; [lia|].
        specialize (Hq q0 eq_refl). destruct (bit_true w q0); simpl; lia. }
      assert (Hsq : seen (w_bit w ++ ls) (List.length (contents r)) (IBit q) = IBit q).
      { unfold seen. replace (numeq (w_bit w ++ ls) (IBit q) (zn (List.length (contents r)))) with false; [reflexivity|].
        symmetry. unfold numeq.
        assert (Hf : nth_error (w_bit w ++ [(LStr (py_str (List.length (circuit_bits (with_b x s)))), @None bool)]) (List.length (w_bit w))
                     = Some (LStr (py_str (List.length (circuit_bits (with_b x s)))), None)).
        { rewrite nth_error_app2 by apply le_n. now rewrite Nat.sub_diag. }
        subst q ls. unfold bit_used. destruct a as [|q0|]; try congruence.
        - now rewrite Hf.
        - unfold bit_used in *. simpl in Hu. unfold bit_value in Hu. unfold bit_true.
          destruct (nth_error (w_bit w) q0) as [[lb [[|]|]]|] eqn:En.
          + congruence.
          + now rewrite Hf.
          + rewrite app_nil_r, En. reflexivity.
          + rewrite app_nil_r, En. reflexivity. }
      rewrite Hsq in Cr'.
      unfold JB. cbn [w_circ set_bit set_circ w_bit]. rewrite set_nth_map. apply set_nth_Forall.
      * eapply Forall_impl; [|exact Hj]. intros s0. apply side_ok_weaken. intros v. apply gb_mono.
        rewrite app_length. lia.
      * cbn. pose proof Hx1 as [A1 _]. constructor; cbn; [|discriminate].
        apply regs_ok_set with (r := r); auto.
        -- eapply regs_ok_weaken; [|exact A1]. intros v. apply gb_mono. rewrite app_length. lia.
        -- apply Hch.
        -- rewrite Fr'. discriminate.
        -- exists [IBit q]. split; [exact Cr'|]. split; [|split].
           ++ constructor; [|constructor]. exists q. auto.
           ++ constructor; [easy|constructor].
           ++ intros u [<-|[]] Hi. pose proof (ro_good _ _ A1) as G. rewrite Forall_forall in G.
              pose proof (G _ Hi) as (q' & [= Eqq] & H). clear Cr' Hsq.
              subst q. unfold bit_used in *. destruct a as [|q0|]; try congruence; [lia|].
              destruct (bit_true w q0); [|lia]. apply (Hnew q0 eq_refl). exact Hi.
Qed.

Notation classical_ok := (classical_ok P ptrue peqb).

Lemma IB_call w x : classical_ok w x -> small P (fst (do_call ptrue peqb x w)) -> IB P w ->
  IB P (fst (do_call ptrue peqb x w)).
Proof.
  intros (Ho & Hu & Hr & Hl) S Hj. unfold leaves_clear in Hl. destruct (plain_call P x) eqn:E.
  - apply (k_do_call P ptrue peqb (IB P) (IB_same P) (keepsB_qubits P) (keepsB_bits P)); auto.
  - destruct x; try discriminate E; simpl in Ho; try contradiction.
    5: { split; [|exact Hl]. apply JB_add_bit; auto. apply Hj. }
    6: { apply IB_add_cregister; auto. }
    all: try (split; [|exact Hl]; clear Hl; cbn [do_call]; unfold bit_set;
              destruct (nth_error (w_bit w) b) as [[l o]|]; [|apply Hj];
              destruct o; [destruct force|]; try apply Hj; cbn [fst negb];
              (apply (JB_mono _ w); [cbn; rewrite set_nth_length; lia|reflexivity|apply Hj])).
    all: match goal with |- IB _ (fst (?m _)) => assert (K : keeps P (IB P) m); [|now apply K] end;
      cbn [do_call]; unfold unit_of;
      repeat first [apply keepsB_new_circuit | apply keepsB_add_qregister
                   | apply keepsB_add_qubit | apply keepsB_qreg_freeze
                   | apply keepsB_creg_freeze | apply keepsB_reset | apply keepsB_bit_reset | kb_step].
Qed.

Lemma IB_start ks : IB P (start P ks).
Proof. split; [constructor|]. intros c x Ex. destruct c; discriminate. Qed.

Theorem IB_reach v : reaches P ptrue peqb classical_ok v -> small P v -> IB P v.
Proof.
  intros (ks & p & He & Hv) S. revert Hv.
  eapply run_visits; eauto using IB_same, keepsB_qubits, keepsB_bits, grows_do_call, IB_call, IB_start.
Qed.
End Keep.

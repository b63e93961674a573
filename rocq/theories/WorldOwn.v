(** Circuits only get more qubits, and their operations act on them. *)
From Coq Require Import List ZArith String Bool Arith Lia.
From Verif Require Import Py RegisterModel RegisterSpec RegisterProofs WorldModel WorldSpec WorldSpec3 WorldReg WorldInv WorldInv2 WorldInv3 WorldInv4 WorldInv5 WorldInv6 WorldInv7 WorldWf WorldWf2 WorldWf3 WorldProofs2 WorldCtx WorldOps WorldBuild WorldReplay WorldTrace WorldCtx3.
Import ListNotations.
Local Open Scope nat_scope.

Section Own.
Variable P : Type.
Variable ptrue : P -> bool.
Variable peqb : P -> P -> bool.
Notation world := (world P).
Notation M := (M P).
Notation do_call := (do_call ptrue peqb).

Ltac grow_step := first [ apply grows_ret | apply grows_raise | apply grows_lift
  | apply grows_read | apply grows_get_circ | apply grows_upd_circ | apply grows_new_qubit | apply grows_num_qubits
  | apply grows_qubits | apply grows_regget | apply grows_when
  | match goal with |- grows _ (match ?b with _ => _ end) => destruct b end
  | apply grows_bind; [|intros ?] ].

(** ** A qubit of a circuit stays one *)
Section Has.
Variable d : nat.
Variable q : item.
Definition Has (w : world) : Prop := exists x, nth_error (w_circ w) d = Some x /\ In q (circuit_qubits x).
Definition JH (w : world) : Prop := JQ P w /\ Has w.

Lemma Has_map (w w' : world) : map c_q (w_circ w') = map c_q (w_circ w) -> Has w -> Has w'.
Proof.
  intros E (x & Ex & Hx). assert (H : nth_error (map c_q (w_circ w')) d = Some (c_q x)) by (rewrite E, nth_map, Ex; reflexivity).
  rewrite nth_map in H. destruct (nth_error (w_circ w') d) as [x'|] eqn:E'; [|discriminate]. injection H as H.
  exists x'. split; [exact E'|]. unfold circuit_qubits in *. now rewrite H.
Qed.
Lemma JH_same w w' : same P w w' -> JH w -> JH w'.
Proof. intros E [A B]. split; [eapply JQ_same; eauto|]. eapply Has_map; [apply E|exact B]. Qed.
Lemma Has_put (w : world) c x y : nth_error (w_circ w) c = Some x -> incl (circuit_qubits x) (circuit_qubits y) -> Has w ->
  Has (set_circ w (set_nth c y (w_circ w))).
Proof.
  intros E H (z & Ez & Hz). destruct (Nat.eq_dec c d) as [e|n].
  - exists y. rewrite <- e in *. split; [cbn; eapply set_nth_same; eauto|]. apply H. congruence.
  - exists z. split; [|exact Hz]. cbn. now rewrite set_nth_other.
Qed.
Lemma keeps_has {A} (m : M A) : keeps P (JQ P) m -> (forall w, small P (fst (m w)) -> JQ P w -> Has w -> Has (fst (m w))) -> keeps P JH m.
Proof. intros [G K] H. split; [exact G|]. intros w S [A1 B1]. split; auto. Qed.
Lemma keeps_has_q {A} (m : M A) : keeps P (JQ P) m -> (forall w, map c_q (w_circ (fst (m w))) = map c_q (w_circ w)) -> keeps P JH m.
Proof. intros K H. apply keeps_has; [exact K|]. intros w _ _. now apply Has_map. Qed.

Lemma kh_qubits c : keeps P JH (@qubits P c).
Proof.
  apply keeps_has; [apply keepsQ_qubits|]. intros w _ _ H. destruct (qubits_any P c w) as [->|(x & r & E & ->)]; [exact H|].
  apply (Has_put w c x); auto. apply incl_refl.
Qed.
Lemma kh_upd c f : (forall x, c_q (f x) = c_q x) -> keeps P JH (@upd_circ P c f).
Proof.
  intros H. apply keeps_has_q; [now apply keepsQ_upd_circ|]. intros w. destruct (nth_error (w_circ w) c) as [x|] eqn:E.
  - rewrite (upd_circ_run P c f w x E). cbn. eapply map_set_nth_same; eauto.
  - unfold upd_circ. now rewrite (bind_err _ _ _ _ _ _ (get_circ_none P c w E)).
Qed.
Lemma kh_bits c : keeps P JH (@bits P c).
Proof.
  apply keeps_has_q; [apply keepsQ_bits|]. intros w. destruct (bits_any P c w) as [->|(x & r & E & ->)]; [reflexivity|].
  cbn. eapply map_set_nth_same; eauto.
Qed.
Lemma kh_add_qregister c n l : keeps P JH (@add_qregister P c n l).
Proof.
  apply keeps_has; [apply keepsQ_add_qregister|]. intros w S Hj H.
  assert (Sw : small P w) by (eapply small_mono; [apply grows_add_qregister|exact S]).
  destruct (nth_error (w_circ w) c) as [x|] eqn:E.
  2: { unfold add_qregister. now rewrite (bind_err _ _ _ _ _ _ (get_circ_none P c w E)). }
  destruct (dget label_eqb (qlabel x l) (s_regs (c_q x))) as [r|] eqn:El.
  { now rewrite (add_qregister_taken P c n l w x r E El). }
  destruct (ssize_ok (zn (List.length (w_qubit w) + n) + 1)) eqn:Room.
  - destruct (add_qregister_run P c n l w x Hj Sw Room E El) as (k & r & -> & _). cbn [fst].
    match goal with |- Has ?v => apply (Has_map (set_circ w (set_nth c (more_q x (qlabel x l) r) (w_circ w)))); [reflexivity|] end.
    apply (Has_put w c x); auto. unfold circuit_qubits, more_q. cbn [c_q with_q s_regs]. rewrite all_items_app. apply incl_appl, incl_refl.
  - exfalso. destruct (qubits_run P c w x Hj Sw E) as (rv & Ev & _).
    unfold add_qregister in S. rewrite (bind_ok _ _ _ _ _ _ (get_circ_some _ c w x E)) in S.
    fold (qlabel x l) in S. unfold regmem, dmem in S. rewrite El in S.
    unfold num_qubits in S. rewrite (bind_ok P _ _ w (cached_q P w c x rv) (stop (core rv))) in S
      by (rewrite (bind_ok _ _ _ _ _ _ Ev); reflexivity).
    rewrite (bind_ok _ _ _ _ _ _ (new_qubits_run P n (stop (core rv)) (cached_q P w c x rv))) in S.
    match type of S with small _ (fst (?m ?v)) =>
      assert (G : grows P m) by (repeat grow_step); pose proof (small_mono _ _ _ (G v) S) as [S1 _] end.
    cbn in S1. rewrite app_length, map_length, seq_length in S1. congruence.
Qed.

Lemma kh_add_qubit c a l : keeps P JH (@add_qubit P c a l).
Proof.
  apply keeps_has; [apply keepsQ_add_qubit|]. intros w S Hj H.
  assert (Sw : small P w) by (eapply small_mono; [apply grows_add_qubit|exact S]).
  destruct (nth_error (w_circ w) c) as [x|] eqn:E.
  2: { unfold add_qubit. destruct a; cbn; auto; unfold mbind.
       - cbn. rewrite (get_circ_none _ c w E). exact H.
       - cbn. destruct (nth_error (w_qubit w) i); cbn; [|exact H]. rewrite (get_circ_none _ c w E). exact H. }
  assert (Ha : a = ABad \/ (exists q, a = AItem q /\ List.length (w_qubit w) <= q) \/
              (a <> ABad /\ forall q, a = AItem q -> q < List.length (w_qubit w))).
  { destruct a as [|i|]; auto.
    - right; right. split; [discriminate|]. discriminate.
    - destruct (le_lt_dec (List.length (w_qubit w)) i); [right; left; eauto|].
      right; right. split; [discriminate|]. now intros q' [= <-]. }
  destruct Ha as [->|[(i & -> & Hq)|[Ha Hq]]].
  - exact H.
  - unfold add_qubit. apply nth_error_None in Hq.
    assert (Eq : qubit_exists (AItem i) w = (w, Err Undefined)) by (cbn; rewrite Hq; reflexivity).
    rewrite (bind_err _ _ _ _ _ _ Eq). exact H.
  - destruct (add_qubit_run P c a l w x Hj Sw E Ha Hq) as (s & l' & r & Hch & Hs & Hout).
    assert (I1 : incl (circuit_qubits x) (circuit_qubits (with_q x s))).
    { unfold circuit_qubits. cbn [c_q with_q]. rewrite (chosen_items _ _ _ _ _ _ Hch). apply incl_refl. }
    destruct Hout as [i rv _ _ Rv Cv|rv ls _ _ _ Rv Cv|i ls r' Hnew Fr Eq El Rr' Fr' Cr']; cbn [fst].
    + eapply Has_map; [|apply (Has_put w c x (with_q (with_q x s) (mkSide (s_regs s) (Some rv)))); [exact E|exact I1|exact H]].
      cbn. now rewrite set_nth_set_nth.
    + eapply Has_map; [|apply (Has_put w c x (with_q (with_q x s) (mkSide (s_regs s) (Some rv)))); [exact E|exact I1|exact H]].
      cbn. now rewrite set_nth_set_nth.
    + eapply Has_map; [|apply (Has_put w c x (with_q (with_q x s) (mkSide (dset label_eqb l' r' (s_regs s)) None))); [exact E| |exact H]].
      * cbn. reflexivity.
      * intros u Hu. apply I1 in Hu. unfold circuit_qubits in *. cbn [c_q with_q s_regs] in *.
        assert (Hr : dget label_eqb l' (s_regs s) = Some r) by apply Hch.
        destruct (dget_split _ _ _ Hr) as (a1 & b1 & Es & Hd). rewrite Hd. rewrite Es in Hu.
        rewrite all_items_app in *. apply in_app_or in Hu. apply in_or_app. destruct Hu as [Hu|Hu]; [now left|right].
        change ((l', r) :: b1) with ([(l', r)] ++ b1) in Hu. change ((l', r') :: b1) with ([(l', r')] ++ b1).
        rewrite all_items_app in *. apply in_app_or in Hu. apply in_or_app. destruct Hu as [Hu|Hu]; [left|now right].
        cbn in *. rewrite app_nil_r in *. rewrite Cr'. apply in_or_app. now left.
Qed.

Ltac kh_step := first
  [ apply keeps_ret; exact JH_same | apply keeps_raise; exact JH_same | apply keeps_lift; exact JH_same
  | apply keeps_read; exact JH_same | apply keeps_get_circ; exact JH_same
  | apply kh_qubits | apply kh_bits | apply kh_add_qregister | apply kh_add_qubit
  | apply keeps_when; [exact JH_same|] | apply keeps_iterM; [exact JH_same|intros ?]
  | apply kh_upd; [intros ?; reflexivity]
  | match goal with |- keeps _ _ (match ?b with _ => _ end) => destruct b end
  | apply keeps_bind; [|intros ?] ].
Lemma kh_new_bits n a : keeps P JH (@new_bits P a n).
Proof. apply keeps_has_q; [apply keepsQ_new_bits|]. intros w. now rewrite new_bits_run. Qed.
Lemma kh_add_cregister c n l : keeps P JH (@add_cregister P c n l).
Proof. unfold add_cregister, num_bits. repeat first [apply kh_new_bits | kh_step]. Qed.
Lemma kh_bit_exists a : keeps P JH (@bit_exists P a).
Proof.
  apply keeps_same; [exact JH_same|]. intros w. destruct a; cbn; try apply same_refl.
  unfold mbind. destruct (nth_error (w_bit w) i); cbn; apply same_refl.
Qed.
Lemma kh_set_bit l : keeps P JH (@new_bit P l).
Proof. apply keeps_has_q; [apply keepsQ_set_bit|]. reflexivity. Qed.
Lemma kh_set_qubit l : keeps P JH (@new_qubit P l).
Proof. apply keeps_has_q; [apply keepsQ_set_qubit|]. reflexivity. Qed.
Lemma kh_add_bit c a l : keeps P JH (@add_bit P c a l).
Proof.
  unfold add_bit, first_label, regget. repeat first [apply kh_add_cregister | apply kh_bit_exists | apply kh_set_bit | kh_step].
Qed.
Lemma kh_qreg_freeze c l : keeps P JH (@qreg_freeze P c l).
Proof.
  apply keeps_has; [apply keepsQ_qreg_freeze|]. intros w _ Hj H. unfold qreg_freeze.
  destruct (nth_error (w_circ w) c) as [x|] eqn:E; [rewrite (bind_ok _ _ _ _ _ _ (get_circ_some _ c w x E))
    |rewrite (bind_err _ _ _ _ _ _ (get_circ_none _ c w E)); exact H].
  unfold regget. destruct (dget label_eqb l (s_regs (c_q x))) as [r|] eqn:El; [|exact H].
  unfold mbind at 1. cbn [ret]. unfold put_qreg. rewrite (upd_circ_run _ _ _ w x E). cbn [fst].
  apply (Has_put w c x); auto. unfold circuit_qubits. cbn [c_q with_q s_regs]. rewrite (freeze_items _ _ _ El). apply incl_refl.
Qed.
Lemma kh_creg_freeze c l : keeps P JH (@creg_freeze P c l).
Proof. unfold creg_freeze, put_creg. repeat kh_step. unfold regget. repeat kh_step. Qed.
Lemma kh_bit_reset b : keeps P JH (@bit_reset P b).
Proof.
  apply keeps_has_q; [apply keepsQ_bit_reset|]. intros w. unfold bit_reset.
  destruct (nth_error (w_bit w) b) as [[l v]|]; reflexivity.
Qed.
Lemma kh_bit_set b v f : keeps P JH (@bit_set P b v f).
Proof.
  apply keeps_has_q; [apply keepsQ_bit_set|]. intros w. unfold bit_set.
  destruct (nth_error (w_bit w) b) as [[l o]|]; [|reflexivity]. destruct o; [destruct f|]; reflexivity.
Qed.
Lemma kh_new_circuit par nq nb : keeps P JH (@new_circuit P par nq nb).
Proof.
  unfold new_circuit. apply keeps_bind; [repeat kh_step|]. intros c.
  apply keeps_bind.
  { split; [apply grows_eq; auto|]. intros w _ [Hj H]. split.
    - unfold JQ. cbn. rewrite map_app. apply Forall_app. split; [exact Hj|]. constructor; [apply side_ok_empty|constructor].
    - destruct H as (x & Ex & Hx). exists x. split; [|exact Hx]. cbn. now apply nth_app_left. }
  intros _. repeat first [apply kh_add_cregister | kh_step].
Qed.
Lemma kh_reset c : keeps P JH (@reset P c true).
Proof.
  unfold reset. apply keeps_bind; [repeat kh_step|]. intros _. apply keeps_bind.
  - repeat kh_step. destruct a1; simpl; repeat kh_step. apply kh_bit_reset.
  - intros _. apply kh_upd. intros x. destruct (c_par x); reflexivity.
Qed.
Lemma Has_call w x : own_methods P w x -> keeps_registers P x -> small P (fst (do_call x w)) -> JQ P w -> Has w -> Has (fst (do_call x w)).
Proof.
  intros Ho Hk S Hj H. assert (K : JH (fst (do_call x w))); [|apply K].
  destruct (plain_call P x) eqn:E.
  - apply (k_do_call P ptrue peqb JH JH_same kh_qubits kh_bits); auto. split; auto.
  - assert (K : keeps P JH (do_call x)); [|apply K; [auto|split; auto]].
    destruct x; try discriminate E; simpl in Ho, Hk; try contradiction;
      cbn [WorldModel.do_call]; unfold unit_of; try (destruct keep; [|contradiction]);
      repeat first [apply kh_new_circuit | apply kh_add_cregister | apply kh_add_bit | apply kh_qreg_freeze
                   | apply kh_creg_freeze | apply kh_reset | apply kh_bit_set | apply kh_bit_reset | apply kh_set_bit | apply kh_set_qubit | kh_step].
Qed.
End Has.

(** ** What the calls that build leave behind *)
Notation effect := (effect P).
Lemma build_spec x (w : world) : building P x = true -> WF P w ->
  exists vl ex j zs, let u := set_exit (set_var w vl) ex in
    WF P u /\ (w_active w = None -> vl = w_var w) /\
    effect u (fst (do_call x w)) (seq (List.length (w_op w)) j) /\ w_op (fst (do_call x w)) = w_op w ++ zs /\
    j <= List.length zs /\ Forall (fit P ptrue u) (firstn j zs).
Proof.
  intros Hb W. pose proof (WF_sound P w W) as S. cbv zeta.
  assert (Z : set_exit (set_var w (w_var w)) (w_exit w) = w) by now destruct w.
  assert (Z2 : set_var w (w_var w) = w) by now destruct w.
  assert (N : forall e : exn, exists vl ex j zs, WF P (set_exit (set_var w vl) ex) /\ (w_active w = None -> vl = w_var w) /\
    effect (set_exit (set_var w vl) ex) w (seq (List.length (w_op w)) j) /\ w_op w = w_op w ++ zs /\ j <= List.length zs /\ Forall (fit P ptrue (set_exit (set_var w vl) ex)) (firstn j zs)).
  { intros _. exists (w_var w), (w_exit w), 0, []. rewrite Z, app_nil_r. cbn. split; [exact W|]. split; [auto|]. split; [apply effect_refl|]. split; [auto|]. split; [lia|constructor]. }
  destruct x; try discriminate Hb; cbn [WorldModel.do_call].
  - destruct (construct_spec P ptrue w k ps a S) as (l & A & B). unfold unit_of, built_ok in *.
    destruct (construct ptrue k ps a w) as [w1 [n|e]] eqn:E; cbn [fst snd] in *.
    + rewrite (bind_ok _ _ _ _ _ _ E). cbn. destruct B as (-> & -> & x & y & Ex & -> & B). exists (w_var w), (w_exit w), 1, [y]. rewrite Z.
      split; [exact W|]. split; [auto|]. split; [exact A|]. split; [auto|]. split; [auto|]. constructor; [|constructor]. eapply built_fit; eauto.
    + rewrite (bind_err _ _ _ _ _ _ E). cbn. destruct B as (-> & ys & -> & B). exists (w_var w), (w_exit w), 0, ys. rewrite Z.
      split; [exact W|]. split; [auto|]. split; [exact A|]. split; [auto|]. split; [lia|]. constructor.
  - destruct (call_op_spec P ptrue w o a S) as (l & A & B). unfold unit_of in *.
    destruct (call_op ptrue o a w) as [w1 [n|e]] eqn:E; cbn [fst snd] in *.
    + rewrite (bind_ok _ _ _ _ _ _ E). cbn. destruct B as (-> & -> & y & -> & B). exists (w_var w), (w_exit w), 1, [y]. rewrite Z.
      split; [exact W|]. split; [auto|]. split; [exact A|]. split; [auto|]. split; [auto|]. constructor; [auto|constructor].
    + rewrite (bind_err _ _ _ _ _ _ E). cbn. destruct B as (-> & ys & -> & B). exists (w_var w), (w_exit w), 0, ys. rewrite Z.
      split; [exact W|]. split; [auto|]. split; [exact A|]. split; [auto|]. split; [lia|]. constructor.
  - unfold call_plain. destruct (nth_error (w_circ w) t) as [y|] eqn:Et.
    2: { rewrite (bind_err _ _ _ _ _ _ (get_circ_none P t w Et)). apply (N Undefined). }
    rewrite (bind_ok _ _ _ _ _ _ (get_circ_some P t w y Et)). destruct (c_par y); [apply (N TypeError)|].
    destruct (call_circuit_spec P ptrue w t qs ba W) as (j & zs & A & B & F & C). cbv zeta in *. exists (w_var w), (w_exit w), j, zs. rewrite Z.
    split; [exact W|]. split; [auto|]. split; [exact A|]. split; [exact B|]. split; [|exact F].
    destruct (snd (call_circuit ptrue t qs ba w)); [|lia]. destruct C as (x0 & ks & bm & _ & -> & C). apply Forall2_len in C. lia.
  - unfold call_parametric. destruct (nth_error (w_circ w) t) as [y|] eqn:Et.
    2: { rewrite (bind_err _ _ _ _ _ _ (get_circ_none P t w Et)). apply (N Undefined); auto. }
    rewrite (bind_ok _ _ _ _ _ _ (get_circ_some P t w y Et)). destruct (negb (c_par y)); [apply (N TypeError); auto|]. rewrite (read_bind P).
    assert (K : exists vl r, match w_active w with Some _ => set_vars (c_vars y) ps | None => ret tt end w = (set_var w vl, r) /\ WF P (set_var w vl) /\ (w_active w = None -> vl = w_var w)).
    { destruct (w_active w) as [a|] eqn:Ha.
      - destruct (set_vars_run1 P (c_vars y) ps w) as (vl & r & E). exists vl, r. split; [exact E|]. split; [|discriminate].
        assert (Wv : inv P (WF P) (set_vars (c_vars y) ps)) by (apply inv_set_vars; intros v ? ? ? ? _ Hv; now apply WF_set_var). specialize (Wv w W). rewrite E in Wv. exact Wv.
      - exists (w_var w). eexists. rewrite Z2. split; [reflexivity|auto]. }
    destruct K as (vl & r & E & Wv & Hv). destruct r as [u|e].
    2: { rewrite (bind_err _ _ _ _ _ _ E). exists vl, (w_exit w), 0, []. rewrite app_nil_r. cbn [fst]. split; [exact Wv|]. split; [exact Hv|].
         split; [apply effect_refl|]. split; [reflexivity|]. split; [auto|constructor]. }
    rewrite (bind_ok _ _ _ _ _ _ E). unfold mbind. cbv beta iota.
    assert (Wu : WF P (set_exit (set_var w vl) (w_exit w ++ [t]))).
    { destruct Wv. constructor; auto. cbn in *. intros t' Ht'. apply in_app_or in Ht'. destruct Ht' as [Ht'|[<-|[]]]; [auto|]. apply nth_error_Some. congruence. }
    destruct (call_circuit_spec P ptrue _ t qs ba Wu) as (j & zs & A & B & F & C). cbv zeta in *. exists vl, (w_exit w ++ [t]), j, zs.
    split; [exact Wu|]. split; [exact Hv|]. split; [exact A|]. split; [exact B|]. split; [|exact F].
    match type of C with match snd ?m with _ => _ end => destruct (snd m) end; [|lia]. destruct C as (x0 & ks & bm & _ & -> & C). apply Forall2_len in C. lia.
Qed.
End Own.

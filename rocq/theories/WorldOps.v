(** Removal of operations, values of bits, measurements, the number of qubits of an operation. *)
From Coq Require Import List ZArith String Bool Arith Lia.
From Verif Require Import Py RegisterModel RegisterProofs WorldModel WorldSpec WorldSpec2 WorldInv WorldInv2 WorldInv5 WorldInv6 WorldWf WorldWf2 WorldWf3 WorldCtx WorldCtx2.
Import ListNotations.
Local Open Scope nat_scope.

Section Ops.
Variable P : Type.
Variable ptrue : P -> bool.
Variable peqb : P -> P -> bool.
Notation world := (world P).
Notation M := (M P).
Notation inv := (inv P).
Notation WF := (WF P).
Notation run := (run ptrue peqb).
Notation same_param := (same_param P ptrue peqb).
Notation same_op := (same_op P ptrue peqb).
Notation matches := (matches P ptrue peqb).

(** ** remove *)
Lemma item_same (w : world) u v : py_eqb (numeq (w_bit w)) u v = true <-> same_item P w u v.
Proof.
  unfold py_eqb. rewrite !orb_true_iff. unfold same_item, bit_value.
  assert (N : forall x z, numeq (w_bit w) x z = true <->
    x = IInt z \/ exists b n, x = IBit b /\ (match nth_error (w_bit w) b with Some (_, v) => v | None => None end) = Some n /\ z = (if n then 1%Z else 0%Z)).
  { intros x z. split.
    - destruct x as [|z0| | | | | |b|]; simpl; try discriminate.
      + intros H. apply Z.eqb_eq in H. left. congruence.
      + destruct (nth_error (w_bit w) b) as [[l [n|]]|] eqn:E; try discriminate. intros H. apply Z.eqb_eq in H. right.
        exists b, n. rewrite E. auto.
    - intros [->|(b & n & -> & H1 & ->)]; simpl; [apply Z.eqb_refl|].
      destruct (nth_error (w_bit w) b) as [[l [m|]]|]; try discriminate. injection H1 as ->. apply Z.eqb_refl. }
  split.
  - intros [[H|H]|H].
    + left. destruct (item_eqb_spec u v); congruence.
    + destruct v; try discriminate. apply N in H. destruct H as [->|(b & n & -> & H1 & ->)]; [auto|]. right. eauto 8.
    + destruct u; try discriminate. apply N in H. destruct H as [->|(b & n & -> & H1 & ->)]; [auto|]. right. eauto 8.
  - intros [->|(b & z & n & [[-> ->]|[-> ->]] & H1 & H2)].
    + left. left. apply item_eqb_refl.
    + left. right. apply N. right. eauto.
    + right. apply N. right. eauto.
Qed.
Lemma list_same {A} (f : A -> A -> bool) (R : A -> A -> Prop) : (forall a b, f a b = true <-> R a b) ->
  forall l m, list_eqb f l m = true <-> Forall2 R l m.
Proof.
  intros H. induction l as [|a l IH]; intros [|b m]; simpl.
  - split; auto.
  - split; [discriminate|]. intros K. inversion K.
  - split; [discriminate|]. intros K. inversion K.
  - rewrite andb_true_iff, H, IH. split; [intros [? ?]; auto|]. intros K. inversion K; auto.
Qed.
Lemma qubits_same (w : world) a b : oqubits_eqb w a b = true <-> same_qubits P w a b.
Proof.
  destruct a as [l|], b as [m|]; simpl; try (split; [discriminate|contradiction]); [|split; auto].
  apply list_same. apply item_same.
Qed.
Lemma param_same (w : world) a b : param_eqb ptrue peqb w a b = true <-> same_param w a b.
Proof.
  assert (N : forall v p, (match var_value w v with Some q => ptrue q && peqb q p | None => false end) = true <->
    exists s q, nth_error (w_var w) v = Some (s, Some q) /\ ptrue q = true /\ peqb q p = true).
  { intros v p. unfold var_value. split.
    - destruct (nth_error (w_var w) v) as [[s [q|]]|]; try discriminate. rewrite andb_true_iff. intros [? ?]. eauto.
    - intros (s & q & -> & H1 & H2). now rewrite H1, H2. }
  destruct a as [p|u], b as [q|v]; simpl; try apply N; [reflexivity|].
  destruct (nth_error (w_var w) u) as [[s x]|] eqn:E1; destruct (nth_error (w_var w) v) as [[t y]|] eqn:E2.
  - split.
    + intros H. apply String.eqb_eq in H. subst. eauto.
    + intros (s' & x' & y' & H1 & H2). injection H1 as -> ->. injection H2 as -> ->. apply String.eqb_refl.
  - split; [discriminate|]. intros (? & ? & ? & ? & ?). congruence.
  - split; [discriminate|]. intros (? & ? & ? & ? & ?). congruence.
  - split; [discriminate|]. intros (? & ? & ? & ? & ?). congruence.
Qed.
Lemma has_params_kind k : has_params k = true <-> k = KParam \/ k = KParCtrl.
Proof. destruct k; simpl; split; auto; try discriminate; intros [H|H]; discriminate. Qed.

(** Comparing two operations. *)
Lemma op_eq_run (w : world) el op x y kx ky : nth_error (w_op w) el = Some x -> nth_error (w_op w) op = Some y ->
  nth_error (w_cls w) (o_cls x) = Some kx -> nth_error (w_cls w) (o_cls y) = Some ky ->
  (parametrised P w el -> parametrised P w op) ->
  exists b, op_eq ptrue peqb el op w = (w, Ok b) /\ (b = true <-> same_op w el op).
Proof.
  intros Ex Ey Hx Hy Hc. unfold op_eq.
  assert (E1 : get_op el w = (w, Ok x)) by (unfold get_op; now rewrite Ex).
  assert (E2 : get_op op w = (w, Ok y)) by (unfold get_op; now rewrite Ey).
  assert (E3 : get_cls (o_cls x) w = (w, Ok kx)) by (unfold get_cls; now rewrite Hx).
  assert (E4 : get_cls (o_cls y) w = (w, Ok ky)) by (unfold get_cls; now rewrite Hy).
  rewrite (bind_ok _ _ _ _ _ _ E1), (bind_ok _ _ _ _ _ _ E2), (bind_ok _ _ _ _ _ _ E3), (bind_ok _ _ _ _ _ _ E4).
  assert (Px : parametrised P w el <-> has_params (k_kind kx) = true).
  { rewrite has_params_kind. split; [|intros H; exists x, kx; auto]. intros (y' & k' & A & B & C). congruence. }
  assert (Py : parametrised P w op <-> has_params (k_kind ky) = true).
  { rewrite has_params_kind. split; [|intros H; exists y, ky; auto]. intros (y' & k' & A & B & C). congruence. }
  assert (S : same_op w el op <-> k_name kx = k_name ky /\ same_qubits P w (o_qubits y) (o_qubits x) /\
    (parametrised P w el -> Forall2 (same_param w) (o_params y) (o_params x))).
  { split.
    - intros (x' & y' & kx' & ky' & A & B & C & D & F). congruence.
    - intros H. exists x, y, kx, ky. auto. }
  cbv zeta. destruct (has_params (k_kind kx)) eqn:K.
  - rewrite (proj1 Py (Hc (proj2 Px eq_refl))). eexists. split; [reflexivity|].
    rewrite S, !andb_true_iff, (list_same _ _ (param_same w)), String.eqb_eq, qubits_same. tauto.
  - eexists. split; [reflexivity|]. rewrite S, andb_true_iff, String.eqb_eq, qubits_same.
    assert (~ parametrised P w el) by (rewrite Px; discriminate). tauto.
Qed.
Lemma op_eq_attr (w : world) el op : el < List.length (w_op w) -> op < List.length (w_op w) ->
  (forall o y, nth_error (w_op w) o = Some y -> o_cls y < List.length (w_cls w)) ->
  parametrised P w el -> ~ parametrised P w op -> op_eq ptrue peqb el op w = (w, Err AttributeError).
Proof.
  intros L1 L2 Hk (x & kx & Ex & Hx & K) Hn. destruct (nth_error (w_op w) op) as [y|] eqn:Ey; [|apply nth_error_None in Ey; lia].
  destruct (nth_error (w_cls w) (o_cls y)) as [ky|] eqn:Hy; [|apply nth_error_None in Hy; pose proof (Hk op y Ey); lia].
  unfold op_eq.
  assert (E1 : get_op el w = (w, Ok x)) by (unfold get_op; now rewrite Ex).
  assert (E2 : get_op op w = (w, Ok y)) by (unfold get_op; now rewrite Ey).
  assert (E3 : get_cls (o_cls x) w = (w, Ok kx)) by (unfold get_cls; now rewrite Hx).
  assert (E4 : get_cls (o_cls y) w = (w, Ok ky)) by (unfold get_cls; now rewrite Hy).
  rewrite (bind_ok _ _ _ _ _ _ E1), (bind_ok _ _ _ _ _ _ E2), (bind_ok _ _ _ _ _ _ E3), (bind_ok _ _ _ _ _ _ E4). cbv zeta.
  apply has_params_kind in K. rewrite K. destruct (has_params (k_kind ky)) eqn:K2; [|reflexivity].
  exfalso. apply Hn. exists y, ky. rewrite <- has_params_kind. auto.
Qed.
Lemma parametrised_dec (w : world) o : parametrised P w o \/ ~ parametrised P w o.
Proof.
  destruct (nth_error (w_op w) o) as [y|] eqn:E; [|right; intros (? & ? & ? & ?); congruence].
  destruct (nth_error (w_cls w) (o_cls y)) as [k|] eqn:Ek; [|right; intros (? & ? & ? & ? & ?); congruence].
  destruct (has_params (k_kind k)) eqn:K.
  - left. exists y, k. rewrite <- has_params_kind. auto.
  - right. intros (y' & k' & A & B & C). apply has_params_kind in C. congruence.
Qed.

(** [list.index] *)
Lemma index_of_run (w : world) op : op < List.length (w_op w) ->
  (forall o y, nth_error (w_op w) o = Some y -> o_cls y < List.length (w_cls w)) ->
  forall os i, Forall (fun el => el < List.length (w_op w)) os ->
  (exists l1 el l2, os = l1 ++ el :: l2 /\ matches w op el /\ comparable P w op el /\
     Forall (fun u => comparable P w op u /\ ~ matches w op u) l1 /\
     index_of ptrue peqb os op i w = (w, Ok (i + List.length l1))) \/
  (Forall (fun u => comparable P w op u /\ ~ matches w op u) os /\ index_of ptrue peqb os op i w = (w, Err ValueError)) \/
  (exists l1 el l2, os = l1 ++ el :: l2 /\ ~ comparable P w op el /\
     Forall (fun u => comparable P w op u /\ ~ matches w op u) l1 /\
     index_of ptrue peqb os op i w = (w, Err AttributeError)).
Proof.
  intros Lo Hk. induction os as [|el os IH]; intros i F.
  { right. left. split; [constructor|reflexivity]. }
  inversion F as [|? ? L F']; subst.
  assert (Hit : comparable P w op el -> matches w op el ->
    (if Nat.eqb el op then ret true else op_eq ptrue peqb el op) w = (w, Ok true) ->
    index_of ptrue peqb (el :: os) op i w = (w, Ok i)).
  { intros _ _ E. simpl. rewrite (bind_ok _ _ _ _ _ _ E). reflexivity. }
  destruct (Nat.eq_dec el op) as [->|n].
  - left. exists [], op, os. split; [reflexivity|]. split; [now left|]. split; [now left|]. split; [constructor|].
    simpl List.length. rewrite Nat.add_0_r. apply Hit; [now left|now left|]. now rewrite Nat.eqb_refl.
  - assert (Eb : Nat.eqb el op = false) by now apply Nat.eqb_neq. rewrite Eb in Hit.
    destruct (parametrised_dec w el) as [Pe|Pe]; [destruct (parametrised_dec w op) as [Po|Po]|].
    2: { right. right. exists [], el, os. split; [reflexivity|]. split; [intros [?|C]; auto|]. split; [constructor|].
         simpl. rewrite Eb. now rewrite (bind_err _ _ _ _ _ _ (op_eq_attr w el op L Lo Hk Pe Po)). }
    all: assert (Cm : parametrised P w el -> parametrised P w op) by tauto;
      destruct (nth_error (w_op w) el) as [x|] eqn:Ex; [|apply nth_error_None in Ex; lia];
      destruct (nth_error (w_op w) op) as [y|] eqn:Ey; [|apply nth_error_None in Ey; lia];
      destruct (nth_error (w_cls w) (o_cls x)) as [kx|] eqn:Kx; [|apply nth_error_None in Kx; pose proof (Hk el x Ex); lia];
      destruct (nth_error (w_cls w) (o_cls y)) as [ky|] eqn:Ky; [|apply nth_error_None in Ky; pose proof (Hk op y Ey); lia];
      destruct (op_eq_run w el op x y kx ky Ex Ey Kx Ky Cm) as (b & Hb & Hs);
      assert (Cc : comparable P w op el) by (right; exact Cm);
      (destruct b;
       [ left; exists [], el, os; split; [reflexivity|]; split; [right; tauto|]; split; [exact Cc|]; split; [constructor|];
         simpl List.length; rewrite Nat.add_0_r; apply Hit; [exact Cc|right; tauto|exact Hb]
       | assert (Nm : ~ matches w op el) by (intros [?|H]; [auto|apply Hs in H; discriminate]);
         assert (St : index_of ptrue peqb (el :: os) op i w = index_of ptrue peqb os op (S i) w)
           by (simpl; rewrite Eb; now rewrite (bind_ok _ _ _ _ _ _ Hb));
         destruct (IH (S i) F') as [(l1 & e' & l2 & H1 & H2 & H3 & H4 & H5)|[(H1 & H2)|(l1 & e' & l2 & H1 & H2 & H3 & H4)]];
         [ left; exists (el :: l1), e', l2; split; [now rewrite H1|]; split; [exact H2|]; split; [exact H3|];
           split; [constructor; auto|]; rewrite St, H5; simpl; do 2 f_equal; lia
         | right; left; split; [constructor; auto|]; now rewrite St
         | right; right; exists (el :: l1), e', l2; split; [now rewrite H1|]; split; [exact H2|]; split; [constructor; auto|]; now rewrite St ]]).
Qed.
Lemma del_nth_app {A} (l1 : list A) x l2 : del_nth (List.length l1) (l1 ++ x :: l2) = l1 ++ l2.
Proof. induction l1; simpl; congruence. Qed.

Lemma remove_run (w : world) c x op : WF w -> nth_error (w_circ w) c = Some x -> op < List.length (w_op w) ->
  (exists l1 el l2, c_ops x = l1 ++ el :: l2 /\ matches w op el /\ comparable P w op el /\
     Forall (fun u => comparable P w op u /\ ~ matches w op u) l1 /\
     remove_op ptrue peqb c op w = (set_circ w (set_nth c (with_ops x (l1 ++ l2)) (w_circ w)), Ok tt)) \/
  (Forall (fun u => comparable P w op u /\ ~ matches w op u) (c_ops x) /\ remove_op ptrue peqb c op w = (w, Err ValueError)) \/
  (exists l1 el l2, c_ops x = l1 ++ el :: l2 /\ ~ comparable P w op el /\
     Forall (fun u => comparable P w op u /\ ~ matches w op u) l1 /\
     remove_op ptrue peqb c op w = (w, Err AttributeError)).
Proof.
  intros W E L. unfold remove_op. rewrite (bind_ok _ _ _ _ _ _ (get_circ_some P c w x E)).
  assert (F : Forall (fun el => el < List.length (w_op w)) (c_ops x)).
  { apply Forall_forall. intros o Ho. eapply wf_ops; eauto. }
  destruct (index_of_run w op L (fun o y => wf_cls _ _ W o y) (c_ops x) 0 F) as
    [(l1 & e' & l2 & H1 & H2 & H3 & H4 & H5)|[(H1 & H2)|(l1 & e' & l2 & H1 & H2 & H3 & H4)]].
  - left. exists l1, e', l2. split; [exact H1|]. split; [exact H2|]. split; [exact H3|]. split; [exact H4|].
    rewrite (bind_ok _ _ _ _ _ _ H5), (upd_circ_run P c _ w x E). simpl plus. now rewrite H1, del_nth_app.
  - right. left. split; [exact H1|]. now rewrite (bind_err _ _ _ _ _ _ H2).
  - right. right. exists l1, e', l2. split; [exact H1|]. split; [exact H2|]. split; [exact H3|]. now rewrite (bind_err _ _ _ _ _ _ H4).
Qed.

(** ** Bits *)
Lemma bit_set_run (w : world) b l old v f : nth_error (w_bit w) b = Some (l, old) ->
  bit_set b v f w = match old with
    | Some _ => if f then (set_bit w (set_nth b (l, Some v) (w_bit w)), Ok tt) else (w, Err ValueError)
    | None => (set_bit w (set_nth b (l, Some v) (w_bit w)), Ok tt)
    end.
Proof. intros E. unfold bit_set. rewrite E. destruct old as [o|]; [|reflexivity]. now destruct f. Qed.

Lemma bit_frame b v (x : call P) : spares_bit P b x -> inv (fun w => b < List.length (w_bit w) /\ bit_value P w b = v) (do_call ptrue peqb x).
Proof.
  set (I := fun w : world => b < List.length (w_bit w) /\ bit_value P w b = v). intros Hs.
  assert (I_circ : forall (w : world) c y f, quiet_upd f -> nth_error (w_circ w) c = Some y -> I w -> I (set_circ w (set_nth c (f y) (w_circ w)))) by (intros; assumption).
  destruct (tame P x) eqn:T.
  - destruct (bit_call P x) eqn:B.
    + destruct x; try discriminate B; simpl in Hs; cbn [do_call]; intros w [L Hi]; unfold bit_set, bit_reset, I, bit_value in *;
      (destruct (nth_error (w_bit w) b0) as [[l o]|] eqn:E; [|auto]).
      * destruct (match o with Some _ => negb force | None => false end); [auto|]. cbn. now rewrite set_nth_length, set_nth_other.
      * cbn. now rewrite set_nth_length, set_nth_other.
    + apply inv_do_call_nobit; auto.
      intros w l [L Hi]. unfold I, bit_value in *. cbn. rewrite app_length, nth_error_app1 by auto. split; [lia|exact Hi].
  - destruct x; try discriminate T; simpl in Hs; cbn [do_call].
    + apply inv_lock; auto.
    + apply inv_unlock; auto.
    + destruct keep; [contradiction|]. unfold reset. apply inv_bind; [|intros _; apply inv_bind; [|intros _; apply inv_unlock; auto]].
      * intros w Hi. unfold upd_circ, mbind, get_circ. destruct (nth_error (w_circ w) c); exact Hi.
      * intros w Hi. unfold upd_circ, mbind, get_circ. destruct (nth_error (w_circ w) c); exact Hi.
    + apply inv_var_put; auto.
    + apply inv_remove; auto.
    + apply inv_unit_of, inv_get_param; auto.
    + apply inv_call_parametric; auto.
    + apply inv_reset_variables; auto.
Qed.
Lemma bit_visits b p w v : b < List.length (w_bit w) -> executes P ptrue peqb (fun _ => spares_bit P b) p w ->
  visits P ptrue peqb p w v -> bit_value P v b = bit_value P w b.
Proof.
  intros L He Hv. set (I := fun u : world => b < List.length (w_bit u) /\ bit_value P u b = bit_value P w b).
  assert (G : I v); [|apply G].
  eapply (visits_inv P ptrue peqb I (fun _ => spares_bit P b)); [..|exact Hv]; auto.
  - intros u x Ho Hi. now apply bit_frame.
  - intros c u Hi. unfold context, mbind, get_circ. destruct (nth_error (w_circ u) c) as [x|]; cbn; [|exact Hi]. now destruct (c_ctx x).
  - intros a. unfold ctx_enter. apply inv_bind; [apply inv_get_ctx|]. intros cx. apply inv_bind; [apply inv_get_circ|]. intros x.
    destruct (c_locked x); [apply inv_raise|]. apply inv_bind; [apply inv_read|]. intros [a'|]; [apply inv_raise|].
    apply inv_bind; [intros u Hi; exact Hi|]. intros _. apply inv_ctx_enter_views. auto.
  - intros a. unfold ctx_exit. apply inv_bind; [apply inv_get_ctx|]. intros cx. apply inv_bind.
    { intros u Hi. unfold upd_circ, mbind, get_circ. destruct (nth_error (w_circ u) (fst cx)); exact Hi. }
    intros _. apply inv_bind; [intros u Hi; exact Hi|]. intros _. apply inv_bind; [apply inv_read|]. intros fs.
    apply inv_bind; [apply inv_iterM; intros; apply inv_reset_variables; auto|]. intros _. apply inv_bind; [intros u Hi; exact Hi|].
    intros _. apply inv_lock. auto.
  - intros f e. unfold set_frozen. apply inv_bind; [apply inv_read|]. intros [a|]; [|apply inv_raise].
    intros u Hi. unfold mbind, get_ctx. destruct (nth_error (w_ctx u) a); exact Hi.
  - split; auto.
Qed.
Lemma bits_up x (w : world) : List.length (w_bit w) <= List.length (w_bit (fst (do_call ptrue peqb x w))).
Proof. apply grows_do_call. Qed.
Lemma bit_call_value b (x : call P) (w : world) : b < List.length (w_bit w) -> no_reset P x ->
  bit_value P (fst (do_call ptrue peqb x w)) b = bit_after P b (bit_value P w b) x.
Proof.
  intros L Hr.
  assert (D : spares_bit P b x -> bit_value P (fst (do_call ptrue peqb x w)) b = bit_value P w b).
  { intros Hs. now apply (bit_frame b (bit_value P w b) x Hs w). }
  destruct (nth_error (w_bit w) b) as [[l o]|] eqn:E; [|apply nth_error_None in E; lia].
  assert (V : bit_value P w b = o) by (unfold bit_value; now rewrite E).
  destruct x; simpl in Hr |- *; try (apply D; exact Hr || exact I).
  - destruct (Nat.eqb b0 b) eqn:Eb.
    + apply Nat.eqb_eq in Eb. subst b0. cbn [do_call]. rewrite (bit_set_run w b l o v force E), V.
      destruct o as [o|]; [destruct force|]; cbn [fst]; unfold bit_value; cbn; rewrite ?(set_nth_same _ _ _ _ E); auto; now rewrite E.
    + apply D. simpl. now apply Nat.eqb_neq in Eb.
  - destruct (Nat.eqb b0 b) eqn:Eb.
    + apply Nat.eqb_eq in Eb. subst b0. cbn [do_call]. unfold bit_reset. rewrite E. unfold bit_value. cbn. now rewrite (set_nth_same _ _ _ _ E).
    + apply D. simpl. now apply Nat.eqb_neq in Eb.
Qed.
Lemma bits_sequence b l : forall w, b < List.length (w_bit w) -> Forall (no_reset P) l ->
  bit_value P (fst (run (tries P l) w)) b = fold_left (bit_after P b) l (bit_value P w b).
Proof.
  induction l as [|x l IH]; intros w L F; [reflexivity|]. inversion F as [|? ? Hx F']; subst. simpl run. unfold mbind. cbn [fst].
  rewrite IH; [|pose proof (bits_up x w); lia|exact F']. simpl. now rewrite bit_call_value.
Qed.

(** ** Measurements *)
Lemma store_run (w : world) o x k n bs : nth_error (w_op w) o = Some x -> nth_error (w_cls w) (o_cls x) = Some k -> k_kind k = KMeas ->
  o_numq x = Some n ->
  store o bs w = (if Nat.ltb (List.length bs) n then (w, Err ValueError)
                  else (set_op w (set_nth o (with_obits x (Some (firstn n bs))) (w_op w)), Ok tt)).
Proof.
  intros E Ek K N. unfold store.
  assert (E1 : get_op o w = (w, Ok x)) by (unfold get_op; now rewrite E).
  assert (E3 : get_cls (o_cls x) w = (w, Ok k)) by (unfold get_cls; now rewrite Ek).
  rewrite (bind_ok _ _ _ _ _ _ E1), (bind_ok _ _ _ _ _ _ E3), K, N. now destruct (Nat.ltb (List.length bs) n).
Qed.

(** ** The number of qubits *)
Lemma check_wrong (w : world) k n l : insists P w k n -> List.length l <> n -> check_qubits k l w = (w, Err ValueError).
Proof.
  intros (x & Ex & N & Hn) L. unfold check_qubits, cls_num_qubits.
  assert (E : get_cls k w = (w, Ok x)) by (unfold get_cls; now rewrite Ex).
  rewrite (bind_ok _ _ _ _ _ _ E), N.
  assert (S : settle k w = (w, Ok tt)).
  { unfold settle. rewrite (bind_ok _ _ _ _ _ _ E). destruct (k_kind x) eqn:K; try reflexivity;
      (destruct n as [|n]; [exfalso; apply Hn; auto|]); rewrite N; reflexivity. }
  assert (C : (settle k;; let! x0 := get_cls k in match k_numq x0 with Some n0 => ret n0 | None => raise AttributeError end) w = (w, Ok n)).
  { rewrite (bind_ok _ _ _ _ _ _ S), (bind_ok _ _ _ _ _ _ E), N. reflexivity. }
  rewrite (bind_ok _ _ _ _ _ _ C). apply Nat.eqb_neq in L. now rewrite L.
Qed.
Lemma op_init_wrong (w : world) k o n l : insists P w k n -> List.length l <> n -> op_init ptrue k o (Some l) w = (w, Err ValueError).
Proof.
  intros H L. unfold op_init, read. unfold mbind at 1. apply bind_err. apply bind_err. now apply check_wrong with n.
Qed.
Lemma upd_op_run o f (w : world) x : nth_error (w_op w) o = Some x -> upd_op o f w = (set_op w (set_nth o (f x) (w_op w)), Ok tt).
Proof. intros E. unfold upd_op, mbind, get_op. now rewrite E. Qed.
Lemma nth_end {A} (l : list A) x : nth_error (l ++ [x]) (List.length l) = Some x.
Proof. rewrite nth_error_app2, Nat.sub_diag by auto. reflexivity. Qed.
Lemma set_nth_end {A} (l : list A) x y : set_nth (List.length l) y (l ++ [x]) = l ++ [y].
Proof. induction l; simpl; congruence. Qed.

(** A wrong number of qubits: nothing but the useless object is left behind. *)
Lemma construct_wrong (w : world) k x ps a n m : nth_error (w_cls w) k = Some x -> insists P w k n -> fits_signature P x ps a ->
  gives a m -> m <> n -> exists y, construct ptrue k ps a w = (set_op w (w_op w ++ [y]), Err ValueError).
Proof.
  intros Ex Hi Hf Hg Hm. unfold construct.
  assert (E : get_cls k w = (w, Ok x)) by (unfold get_cls; now rewrite Ex).
  rewrite (bind_ok _ _ _ _ _ _ E). unfold read. unfold mbind at 1. unfold mbind at 1. cbv beta iota.
  set (y0 := mkOp k None (k_numq x) [] None None None None).
  assert (I' : forall y, insists P (set_op w (w_op w ++ [y])) k n) by (intros y; exact Hi).
  assert (U : forall y f, upd_op (List.length (w_op w)) f (set_op w (w_op w ++ [y])) = (set_op w (w_op w ++ [f y]), Ok tt)).
  { intros y f. rewrite (upd_op_run _ f _ y); [|cbn; apply nth_end]. cbn. now rewrite set_nth_end. }
  assert (Par : forall ps' l y, k_nparams x = Some (List.length ps') -> List.length l <> n ->
    par_init ptrue x k (List.length (w_op w)) ps' (Some l) (set_op w (w_op w ++ [y])) = (set_op w (w_op w ++ [with_oparams y ps']), Err ValueError)).
  { intros ps' l y Hp Hl. unfold par_init, check_params. rewrite Hp, Nat.eqb_refl. unfold mbind at 1. cbn [ret].
    rewrite (bind_ok _ _ _ _ _ _ (U y (fun y => with_oparams y ps'))). now apply op_init_wrong with n. }
  assert (Sp : forall ctl tgt qs, split_args x a = (ctl, tgt, qs) -> k_kind x = KCtrl \/ k_kind x = KParCtrl -> exists l, qs = Some l /\ List.length l <> n).
  { intros ctl tgt qs H Hk. unfold split_args in H. destruct a as [[[|q l]|]|[[|c0 c1]|] [[|t0 t1]|]]; simpl in Hg;
      try (exfalso; tauto); try (exfalso; destruct Hg as (?&?&?); congruence); try (exfalso; destruct Hg as (?&?); simpl in *; congruence).
    - injection H as <- <- <-. exists (q :: l). split; [reflexivity|]. simpl. lia.
    - cbn in H. injection H as <- <- <-. eexists. split; [reflexivity|]. simpl. rewrite app_length. simpl in *. lia. }
  unfold fits_signature in Hf.
  destruct (k_kind x) eqn:K; destruct ps as [ps|]; try contradiction.
  - destruct a as [[l|]|]; try contradiction. destruct Hg as [<- _]. exists y0. apply bind_err. now apply op_init_wrong with n.
  - destruct a as [[l|]|]; try contradiction. destruct Hg as [<- _]. eexists. apply bind_err. now apply Par.
  - destruct (split_args x a) as [[ctl tgt] qs] eqn:S. destruct (Sp ctl tgt qs eq_refl (or_introl eq_refl)) as (l & -> & Hl).
    eexists. apply bind_err. rewrite (bind_ok _ _ _ _ _ _ (U y0 _)). now apply op_init_wrong with n.
  - destruct (split_args x a) as [[ctl tgt] qs] eqn:S. destruct (Sp ctl tgt qs eq_refl (or_intror eq_refl)) as (l & -> & Hl).
    eexists. apply bind_err. rewrite (bind_ok _ _ _ _ _ _ (U y0 _)). apply bind_err. now apply Par.
  - destruct a as [[l|]|]; try contradiction. destruct Hg as [<- _]. exists y0. apply bind_err. now apply op_init_wrong with n.
Qed.
(** A class goes on insisting. *)
Lemma insists_kept (w w' : world) k n : kept P w w' -> insists P w k n -> insists P w' k n.
Proof.
  intros K (x & Ex & N & Hn). destruct (g_cls _ _ _ K k x Ex) as (x' & E' & H1 & H2 & H3 & H4 & H5 & H6).
  exists x'. split; [exact E'|]. rewrite H2. destruct H6 as [H6|(Hk & Hz & _)]; [split; [congruence|exact Hn]|].
  exfalso. rewrite N in Hz. destruct n; [now apply Hn|discriminate].
Qed.
End Ops.

(** Proofs for C79. *)
From Coq Require Import List NArith ZArith Arith String Bool Lia Reals Lra.
From Verif Require Import Py CRing Cplx KernelSpec SimModel SimReal StateModel StateSpec StateProofs RegisterModel WorldModel
  WorldSpec WorldInv WorldInv7 WorldProofs2 LinkModel SessionModel SessionSpec SessionProofs2 SessionProofs3 StatesSpec.
Import ListNotations.
Local Open Scope nat_scope.

(** ** Invariants of programs with simulations *)
Section Inv.
Variable ptrue : R -> bool.
Variable peqb : R -> R -> bool.
Variable A : sprog -> Prop.
Variable Q : session -> Prop.
Hypothesis Qw : forall s w, Q s -> Q (with_world s w).
Hypothesis Qsim : forall c mixed le rnd s, A (SSim c mixed le rnd) -> Q s -> Q (fst (sim c mixed le rnd s)).
Hypothesis Qdm : forall c s, A (SDm c) -> Q s -> Q (fst (read_dm c s)).
Hypothesis Qset : forall c a f z s, A (SSet c a f z) -> Q s -> Q (fst (set_st c a f z s)).

Fixpoint each (p : sprog) : Prop :=
  match p with
  | SSim _ _ _ _ | SDm _ | SSet _ _ _ _ => A p
  | SSeq p q => each p /\ each q
  | SWith _ body | SFrozen body | STry body => each body
  | _ => True
  end.

Lemma lift_inv f s : Q s -> Q (fst (SessionModel.lift f s)).
Proof. intros H. unfold SessionModel.lift. destruct (f (s_w s)). now apply Qw. Qed.
Lemma lastly_inv r fin : Q (fst r) -> Q (fst (lastly r fin)).
Proof. destruct r as [s o]. cbn. intros H. destruct (fin (s_w s)) as [w []]; now apply Qw. Qed.
Lemma then_inv r g : Q (fst r) -> (forall s, Q s -> Q (fst (g s))) -> Q (fst (then_ r g)).
Proof. destruct r as [s []]; cbn; auto. Qed.

Lemma run_inv p : each p -> forall s, Q s -> Q (fst (srun ptrue peqb p s)).
Proof.
  induction p as [|x|c mixed le rnd|c|c a force nz|c|p IHp q IHq|c body IH|body IH|body IH|e]; intros E s H; cbn [srun each] in *.
  - exact H.
  - now apply lift_inv.
  - now apply Qsim.
  - now apply Qdm.
  - now apply Qset.
  - exact H.
  - destruct E. apply then_inv; auto.
  - destruct (context c (s_w s)) as [w [a|e]]; [|now apply Qw]. apply then_inv; [apply lift_inv; now apply Qw|].
    intros s' H'. apply lastly_inv. auto.
  - apply then_inv; [now apply lift_inv|]. intros s' H'. apply lastly_inv. auto.
  - now apply IH.
  - exact H.
Qed.

Lemma visits_inv_s p : each p -> forall s t, Q s -> svisits ptrue peqb p s t -> Q t.
Proof.
  induction p as [|x|c mixed le rnd|c|c a force nz|c|p IHp q IHq|c body IH|body IH|body IH|e]; intros E s t H V; cbn [svisits] in V;
    (destruct V as [->|[->|V]]; [exact H|now apply run_inv|]); try (destruct V; fail); cbn [each] in E.
  - destruct E as [E1 E2]. destruct V as [V|V]; [eauto|].
    pose proof (run_inv p E1 s H) as B. destruct (srun ptrue peqb p s) as [s' [a|e]]; [|destruct V]. eauto.
  - assert (B : Q (fst (entered c s))) by (now apply lift_inv). destruct (entered c s) as [s' [a|e]]; [|destruct V]. eauto.
  - pose proof (lift_inv (set_frozen true CircuitError) s H) as B. destruct (SessionModel.lift _ s) as [s' [a|e]]; [|destruct V]. eauto.
  - eauto.
Qed.
End Inv.

(** ** What the state of a circuit can be *)
Lemma set_at_same {X} i (x : X) f : set_at i x f i = x.
Proof. unfold set_at. now rewrite Nat.eqb_refl. Qed.
Lemma set_at_other {X} i j (x : X) f : j <> i -> set_at i x f j = f j.
Proof. intros H. unfold set_at. apply Nat.eqb_neq in H. now rewrite H. Qed.

Lemma frob_shape1 k (v : N -> C) : (Rabs (frob (mkArr [2 ^ k]%N v) - 1) <= 1 / 100000000 + 1 / 100000)%R <-> nearly_one (2 ^ k) v.
Proof. now rewrite frob_vec. Qed.
Lemma frob_shape2 k (v : N -> C) : (Rabs (frob (mkArr [2 ^ k; 2 ^ k]%N v) - 1) <= 1 / 100000000 + 1 / 100000)%R <-> nearly_one (2 ^ k * 2 ^ k) v.
Proof. unfold frob, size_of. cbn [shape fold_right data]. now rewrite N.mul_1_r. Qed.

Lemma accepted_lawful n a : assert_state n a = Ok tt ->
  lawful (if Nat.eqb (List.length (shape a)) 1 then mkCst (Some a) None else mkCst None (Some a)).
Proof.
  intros H. apply assert_state_ok in H. destruct H as (Hn & [Hs|Hs] & Hc); destruct a as [sh d]; cbn in Hs; subst sh; cbn.
  - apply lawful_vector; [exact Hn|]. now apply frob_shape1.
  - apply lawful_matrix; [exact Hn|]. now apply frob_shape2.
Qed.

Lemma set_state_lawful n a force nz st : lawful st -> lawful (fst (set_state n a force nz st)).
Proof.
  intros H. unfold set_state. destruct (negb force && _); [exact H|].
  destruct (if nz then normalise a else Some a) as [a'|]; [|exact H].
  destruct (assert_state n a') as [[]|e] eqn:E; [|exact H]. exact (accepted_lawful n a' E).
Qed.

Lemma get_dm_lawful st : lawful st -> lawful (fst (get_dm st)).
Proof.
  intros H. destruct H as [|k v Hk Hv|k v rho Hk Hv Hr|k rho Hk Hr]; cbn.
  - constructor.
  - unfold outer, size_of. cbn [shape fold_right data]. rewrite N.mul_1_r. apply lawful_both; auto.
    intros i j Hi Hj. rewrite N.div_add_l by lia. rewrite (N.div_small j) by exact Hj. rewrite N.add_0_r.
    rewrite N.add_comm, N.mod_add by lia. now rewrite N.mod_small by exact Hj.
  - now apply lawful_both.
  - now apply lawful_matrix.
Qed.

Lemma simulate_lawful rnd sc mixed le m st : lawful st -> lawful (snd (fst (simulate_set rnd sc mixed le m st))).
Proof.
  intros H. unfold simulate_set. destruct (simulate_C rnd sc mixed le m) as [m' [o|e]]; [|exact H].
  destruct (out_arr _ o) as [a|]; [|exact H].
  pose proof (set_state_lawful (SimModel.num_qubits Ccring sc) a true false st H) as B.
  destruct (set_state _ a true false st) as [st' r]. exact B.
Qed.

Definition all_lawful (s : session) : Prop := forall c, lawful (s_st s c).

Lemma set_at_lawful c st f : (forall c', lawful (f c')) -> lawful st -> forall c', lawful (set_at c st f c').
Proof. intros H1 H2 c'. unfold set_at. destruct (Nat.eqb c' c); auto. Qed.

Lemma states_lawful ptrue peqb ks p s : svisits ptrue peqb p (begin ks) s -> forall c, lawful (s_st s c).
Proof.
  intros V. refine (visits_inv_s ptrue peqb (fun _ => True) all_lawful _ _ _ _ p _ _ _ _ V).
  - intros s0 w H. exact H.
  - intros c mixed le rnd s0 _ H. unfold sim. destruct (seen (s_w s0) c) as [sc|]; [|exact H].
    pose proof (simulate_lawful rnd sc mixed le (found s0) (s_st s0 c) (H c)) as B.
    destruct (simulate_set rnd sc mixed le (found s0) (s_st s0 c)) as [[m st] r]. intros c'. cbn. now apply set_at_lawful.
  - intros c s0 _ H c'. cbn. apply set_at_lawful; [exact H|]. now apply get_dm_lawful.
  - intros c a f z s0 _ H. unfold set_st. destruct (negb f && _); [exact H|]. destruct (num_qubits c (s_w s0)) as [w [n|e]]; [|exact H].
    pose proof (set_state_lawful (N.of_nat n) a f z (s_st s0 c) (H c)) as B. destruct (set_state _ a f z (s_st s0 c)) as [st r].
    intros c'. cbn. now apply set_at_lawful.
  - clear V. induction p; cbn; auto.
  - intros c. constructor.
Qed.

(** ** What programs leave alone *)
Lemma unconcerned c p : ~ concerns c p ->
  each (fun x => match x with SSim c' _ _ _ | SDm c' | SSet c' _ _ _ => c' <> c | _ => True end) p.
Proof. induction p; cbn; tauto. Qed.

Lemma states_kept ptrue peqb c p s t : ~ concerns c p -> svisits ptrue peqb p s t -> s_st t c = s_st s c.
Proof.
  intros H V. refine (visits_inv_s ptrue peqb _ (fun t => s_st t c = s_st s c) _ _ _ _ p (unconcerned c p H) s t eq_refl V).
  - intros s0 w E. exact E.
  - intros c0 mixed le rnd s0 N E. unfold sim. destruct (seen (s_w s0) c0) as [sc|]; [|exact E].
    destruct (simulate_set rnd sc mixed le (found s0) (s_st s0 c0)) as [[m st] r]. cbn. rewrite set_at_other by congruence. exact E.
  - intros c0 s0 N E. cbn. rewrite set_at_other by congruence. exact E.
  - intros c0 a f z s0 N E. unfold set_st. destruct (negb f && _); [exact E|]. destruct (num_qubits c0 (s_w s0)) as [w [n|e]]; [|exact E].
    destruct (set_state _ a f z (s_st s0 c0)) as [st r]. cbn. rewrite set_at_other by congruence. exact E.
Qed.

(** ** What the states influence *)
Lemma simulate_set_forced rnd sc mixed le m st st' :
  fst (fst (simulate_set rnd sc mixed le m st)) = fst (fst (simulate_set rnd sc mixed le m st')) /\
  snd (simulate_set rnd sc mixed le m st) = snd (simulate_set rnd sc mixed le m st').
Proof.
  unfold simulate_set. destruct (simulate_C rnd sc mixed le m) as [m' [o|e]]; [|split; reflexivity].
  destruct (out_arr _ o) as [a|]; [|split; reflexivity].
  unfold set_state. cbn [negb andb]. destruct (assert_state _ a) as [[]|e]; split; reflexivity.
Qed.

Lemma set_state_forced n a z st st' : snd (set_state n a true z st) = snd (set_state n a true z st').
Proof.
  unfold set_state. cbn [negb andb]. destruct (if z then normalise a else Some a) as [a'|]; [|reflexivity].
  destruct (assert_state n a') as [[]|e]; reflexivity.
Qed.

Section Heedless.
Variable ptrue : R -> bool.
Variable peqb : R -> R -> bool.

Definition alike (r1 r2 : session * res unit) : Prop := same_but_states (fst r1) (fst r2) /\ snd r1 = snd r2.

Lemma with_alike s t w : same_but_states s t -> same_but_states (with_world s w) (with_world t w).
Proof. intros (_ & H1 & H2). split; [reflexivity|]. split; assumption. Qed.
Lemma lift_alike f s t : same_but_states s t -> alike (SessionModel.lift f s) (SessionModel.lift f t).
Proof.
  intros H. unfold SessionModel.lift. destruct H as (Hw & H). rewrite Hw. destruct (f (s_w s)) as [w r].
  split; [|reflexivity]. split; [reflexivity|exact H].
Qed.
Lemma then_alike r1 r2 g : alike r1 r2 -> (forall s t, same_but_states s t -> alike (g s) (g t)) -> alike (then_ r1 g) (then_ r2 g).
Proof.
  destruct r1 as [s [a|e]], r2 as [t [b|e']]; intros (H1 & H2) G; cbn in *; try discriminate; [now apply G|]. now split.
Qed.
Lemma lastly_alike r1 r2 fin : alike r1 r2 -> alike (lastly r1 fin) (lastly r2 fin).
Proof.
  destruct r1 as [s o], r2 as [t o']. intros ((Hw & H) & E). cbn in E, Hw, H. subst o'. cbn. rewrite Hw.
  destruct (fin (s_w s)) as [w []]; (split; [split; [reflexivity|exact H]|reflexivity]).
Qed.

Lemma run_alike p : heedless p -> forall s t, same_but_states s t -> alike (srun ptrue peqb p s) (srun ptrue peqb p t).
Proof.
  induction p as [|x|c mixed le rnd|c|c a force nz|c|p IHp q IHq|c body IH|body IH|body IH|e]; intros Hp s t H; cbn [srun heedless] in *.
  - now split.
  - now apply lift_alike.
  - destruct s as [w f ms ix], t as [w' f' ms' ix']. destruct H as (E1 & E2 & E3). cbn in E1, E2, E3. subst w' ms' ix'.
    unfold sim. cbn [s_w s_st]. destruct (seen w c) as [sc|]; [|split; [split; [reflexivity|split; reflexivity]|reflexivity]].
    change (found (mkSession w f' ms ix)) with (found (mkSession w f ms ix)).
    pose proof (simulate_set_forced rnd sc mixed le (found (mkSession w f ms ix)) (f c) (f' c)) as (G1 & G2).
    destruct (simulate_set rnd sc mixed le _ (f c)) as [[m st] r], (simulate_set rnd sc mixed le _ (f' c)) as [[m' st'] r']. cbn in G1, G2.
    subst m' r'. split; [split; [reflexivity|split; reflexivity]|reflexivity].
  - destruct H as (E1 & E2 & E3). split; [|reflexivity]. split; [exact E1|split; assumption].
  - subst force. destruct s as [w f ms ix], t as [w' f' ms' ix']. destruct H as (E1 & E2 & E3). cbn in E1, E2, E3. subst w' ms' ix'.
    unfold set_st. cbn [negb andb s_w s_st s_mst s_idx]. destruct (num_qubits c w) as [w1 [n|e]]; [|split; [split; [reflexivity|split; reflexivity]|reflexivity]].
    pose proof (set_state_forced (N.of_nat n) a nz (f c) (f' c)) as G.
    destruct (set_state _ a true nz (f c)) as [st r], (set_state _ a true nz (f' c)) as [st' r']. cbn in G. subst r'.
    split; [split; [reflexivity|split; reflexivity]|reflexivity].
  - destruct Hp.
  - destruct Hp. apply then_alike; auto.
  - assert (Hw : s_w t = s_w s) by apply H. rewrite Hw. destruct (context c (s_w s)) as [w [a|e]].
    + apply then_alike; [apply lift_alike; now apply with_alike|]. intros s' t' H'. apply lastly_alike. auto.
    + split; [now apply with_alike|reflexivity].
  - apply then_alike; [now apply lift_alike|]. intros s' t' H'. apply lastly_alike. auto.
  - specialize (IH Hp s t H). split; [apply IH|reflexivity].
  - now split.
Qed.
End Heedless.

(** ** Setting a state *)
Lemma unforced c a z s : is_set (s_st s c) -> set_st c a false z s = (s, Err CircuitError).
Proof.
  intros H. apply is_set_spec in H. unfold set_st. cbn [negb andb]. now rewrite H.
Qed.

Lemma sim_failed c mixed le rnd s s' e : sim c mixed le rnd s = (s', Err e) -> forall c', s_st s' c' = s_st s c'.
Proof.
  unfold sim. destruct (seen (s_w s) c) as [sc|]; [|intros [= <- _]; reflexivity].
  unfold simulate_set. destruct (simulate_C rnd sc mixed le (found s)) as [m [o|e']]; [|].
  - destruct (out_arr _ o) as [a|]; [|discriminate].
    destruct (set_state (SimModel.num_qubits Ccring sc) a true false (s_st s c)) as [st r] eqn:Est. intros [= <- ->] c'. cbn.
    destruct (set_state_spec _ _ _ _ _ _ Est) as (_ & _ & A & _). destruct (A ltac:(discriminate)) as (-> & _).
    unfold set_at. destruct (Nat.eqb_spec c' c); congruence.
  - intros [= <- _] c'. cbn. unfold set_at. destruct (Nat.eqb_spec c' c); congruence.
Qed.

Lemma entries_size a : entries a = size_of a.
Proof. unfold entries, size_of. apply fold_symmetric; intros; lia. Qed.
Lemma norm_frob a : norm a = frob a.
Proof. unfold norm, frob. now rewrite entries_size. Qed.

Lemma store_holds a : holds (StateSpec.store a) a.
Proof. unfold holds, StateSpec.store. destruct (Nat.eqb_spec (List.length (shape a)) 1); auto. Qed.

Section Set_.
Variable ptrue : R -> bool.
Variable peqb : R -> R -> bool.
Variable ks : list cls.
Variable p : sprog.
Variable s : session.
Variable c : nat.
Variable x : circ.
Hypothesis He : sexecutes ptrue peqb (fun w y => own_methods R w y /\ keeps_registers R y) p (begin ks).
Hypothesis Hv : svisits ptrue peqb p (begin ks) s.
Hypothesis Hsm : small R (s_w s).
Hypothesis Hc : nth_error (w_circ (s_w s)) c = Some x.
Let n := List.length (circuit_qubits x).

Lemma counted : exists w', num_qubits c (s_w s) = (w', Ok n) /\ w_bit w' = w_bit (s_w s) /\ same_but_bits c (s_w s) w'.
Proof.
  destruct (refine ptrue peqb p (begin ks)) as (q & _ & V & O).
  assert (Hr : reaches R ptrue peqb (fun w y => own_methods R w y /\ keeps_registers R y) (s_w s)).
  { exists ks, q. split; [|now apply V]. apply O; auto; intros; split; exact I. }
  destruct (C13_q R ptrue peqb (s_w s) c x Hr Hsm Hc) as (r & w' & _ & _ & En & ->).
  eexists. split; [exact En|]. split; [reflexivity|]. unfold same_but_bits. cbn. rewrite set_nth_length. repeat split; auto.
  intros i x' E. destruct (Nat.eq_dec i c) as [->|Hi].
  - rewrite Hc in E. injection E as <-. eexists. split; [eapply set_nth_same; eauto|]. repeat split; auto. congruence.
  - exists x'. rewrite set_nth_other by congruence. repeat split; auto.
Qed.

Lemma same_self w : same_but_bits c w w.
Proof. unfold same_but_bits. repeat split; auto. intros i x' E. exists x'. repeat split; auto. Qed.

Lemma set_step a force nz : exists s' r, set_st c a force nz s = (s', r) /\
  set_state (N.of_nat n) a force nz (s_st s c) = (s_st s' c, r) /\
  same_but_bits c (s_w s) (s_w s') /\ w_bit (s_w s') = w_bit (s_w s) /\ s_mst s' = s_mst s /\ s_idx s' = s_idx s /\
  (forall c', c' <> c -> s_st s' c' = s_st s c').
Proof.
  destruct counted as (w' & En & Eb & Es). unfold set_st, set_state at 2.
  destruct (negb force && _) eqn:Ef.
  - exists s, (Err CircuitError). split; [reflexivity|]. split; [reflexivity|]. split; [apply same_self|]. auto.
  - rewrite En. fold (set_state (N.of_nat n) a force nz (s_st s c)).
    assert (E : set_state (N.of_nat n) a force nz (s_st s c) = match (if nz then normalise a else Some a) with
      | None => (s_st s c, Err ValueError)
      | Some a' => match assert_state (N.of_nat n) a' with Err e => (s_st s c, Err e) | Ok _ => (if Nat.eqb (List.length (shape a')) 1 then mkCst (Some a') None else mkCst None (Some a'), Ok tt) end end).
    { unfold set_state. now rewrite Ef. }
    rewrite <- E. destruct (set_state (N.of_nat n) a force nz (s_st s c)) as [st r].
    eexists _, r. split; [reflexivity|]. cbn. rewrite set_at_same. split; [reflexivity|]. split; [exact Es|]. split; [exact Eb|].
    split; [reflexivity|]. split; [reflexivity|]. intros c' H. now apply set_at_other.
Qed.

Lemma set_plain a force : exists s' r, set_st c a force false s = (s', r) /\
  same_but_bits c (s_w s) (s_w s') /\ w_bit (s_w s') = w_bit (s_w s) /\ s_mst s' = s_mst s /\ s_idx s' = s_idx s /\
  (forall c', c' <> c -> s_st s' c' = s_st s c') /\
  (r = Ok tt <-> (force = true \/ ~ is_set (s_st s c)) /\ 1 <= n /\ right_shape (N.of_nat n) a /\
     (Rabs (norm a - 1) <= 1 / 100000000 + 1 / 100000)%R) /\
  (r = Ok tt -> holds (s_st s' c) a) /\
  (r <> Ok tt -> s_st s' c = s_st s c /\ r = Err (if force then ValueError else match s_st s c with mkCst None None => ValueError | _ => CircuitError end)).
Proof.
  destruct (set_step a force false) as (s' & r & E & E' & H1 & H2 & H3 & H4 & H5). exists s', r. rewrite norm_frob.
  destruct (set_state_spec _ _ _ _ _ _ E') as (A & B & C & D).
  repeat (split; [assumption|]). split; [|split].
  - rewrite A. split; intros (F1 & F2 & F3 & F4); repeat split; auto; lia.
  - intros Hr. rewrite (B Hr). apply store_holds.
  - intros Hr. destruct (C Hr) as (C1 & C2). split; [exact C1|]. unfold is_set in D.
    destruct force.
    + destruct C2 as [->|C2]; [|exact C2]. exfalso. revert E'. unfold set_state. cbn [negb andb].
      destruct (assert_state (N.of_nat n) a) as [[]|e] eqn:Ea; intros [= _ ?]. apply assert_state_err in Ea. subst. discriminate.
    + destruct (s_st s c) as [[v|] [d|]] eqn:Est; cbn in D; try (apply D; [reflexivity|]; first [left; discriminate|right; discriminate]).
      destruct C2 as [->|C2]; [|exact C2]. exfalso. revert E'. unfold set_state. cbn.
      destruct (assert_state (N.of_nat n) a) as [[]|e] eqn:Ea; intros [= _ ?]. apply assert_state_err in Ea. subst. discriminate.
Qed.

Lemma set_normalized a force : exists s' r, set_st c a force true s = (s', r) /\
  same_but_bits c (s_w s) (s_w s') /\ w_bit (s_w s') = w_bit (s_w s) /\ s_mst s' = s_mst s /\ s_idx s' = s_idx s /\
  (forall c', c' <> c -> s_st s' c' = s_st s c') /\
  (r = Ok tt <-> (force = true \/ ~ is_set (s_st s c)) /\ 1 <= n /\ right_shape (N.of_nat n) a /\ norm a <> 0%R) /\
  (r = Ok tt -> exists b, holds (s_st s' c) b /\ shape b = shape a /\ norm b = 1%R /\
     forall i, data b i = Cmul (RtoC (1 / norm a)) (data a i)) /\
  (r <> Ok tt -> s_st s' c = s_st s c).
Proof.
  destruct (set_step a force true) as (s' & r & E & E' & H1 & H2 & H3 & H4 & H5). exists s', r. rewrite norm_frob.
  repeat (split; [assumption|]).
  assert (K : r = Ok tt -> (force = true \/ ~ is_set (s_st s c)) /\ (0 < N.of_nat n)%N /\ right_shape (N.of_nat n) a /\ frob a <> 0%R).
  { intros ->. revert E'. unfold set_state. destruct (negb force && _) eqn:Ef; [discriminate|]. unfold normalise.
    destruct (Req_EM_T (frob a) 0) as [Hz|Hz]; [discriminate|].
    destruct (assert_state (N.of_nat n) (mkArr (shape a) _)) as [[]|e] eqn:Ea; [|discriminate]. intros _.
    apply assert_state_ok in Ea. destruct Ea as (G1 & G2 & _). repeat split; auto.
    destruct force; [now left|right]. intros Hs. apply is_set_spec in Hs. rewrite Hs in Ef. discriminate. }
  split; [|split].
  - split; [intros Hr; destruct (K Hr) as (F1 & F2 & F3 & F4); repeat split; auto; lia|].
    intros (F1 & F2 & F3 & F4). destruct (set_state_normalize (N.of_nat n) a force (s_st s c) ltac:(lia) F3 F4 F1) as (a' & G & _). congruence.
  - intros Hr. destruct (K Hr) as (F1 & F2 & F3 & F4).
    destruct (set_state_normalize (N.of_nat n) a force (s_st s c) F2 F3 F4 F1) as (a' & G1 & G2 & G3 & G4).
    rewrite G1 in E'. injection E' as E' _. exists a'. split; [rewrite <- E'; apply store_holds|]. rewrite norm_frob. auto.
  - intros Hr. revert E'. unfold set_state. destruct (negb force && _); [congruence|]. destruct (normalise a) as [a'|]; [|congruence].
    destruct (assert_state (N.of_nat n) a') as [[]|e]; congruence.
Qed.
End Set_.

(** A state that is set stays until it is replaced: without [force], set_state is refused. *)
Lemma stays ptrue peqb c p s t : ~ concerns c p -> svisits ptrue peqb p s t -> is_set (s_st s c) ->
  s_st t c = s_st s c /\ forall a z, set_st c a false z t = (t, Err CircuitError).
Proof.
  intros H V Hs. pose proof (states_kept ptrue peqb c p s t H V) as E. split; [exact E|]. intros a z. apply unforced. now rewrite E.
Qed.

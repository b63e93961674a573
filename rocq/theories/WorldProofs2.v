(** The properties of circuits, as used by PropsCircuit. *)
From Coq Require Import List ZArith String Bool Arith Lia.
From Verif Require Import Py RegisterModel RegisterSpec RegisterProofs WorldModel WorldSpec WorldReg WorldInv WorldInv2 WorldInv3 WorldInv4 WorldInv5 WorldInv6 WorldInv7 WorldProofs WorldLabels.
Import ListNotations.
Local Open Scope list_scope.
Local Open Scope nat_scope.

Lemma chosen_target d rs l rs1 l' r : chosen d rs l rs1 l' r -> l' = target d rs l.
Proof.
  intros (H1 & H2 & H3 & H4). unfold target. destruct (label_eq_dec l LNone) as [->|n].
  - destruct (H3 eq_refl) as [t Ht]. destruct H4 as [H4|(H4 & H5 & _ & _ & _ & H6)].
    + rewrite <- H4, Ht. reflexivity.
    + destruct (H6 eq_refl) as [-> ->]. reflexivity.
  - rewrite (H2 n). destruct l; congruence.
Qed.

Lemma chosen_at d rs l rs1 l' r : chosen d rs l rs1 l' r ->
  contents r = contents_at rs l' /\ (frozen_ r <> None -> (frozen_ r = Some true <-> frozen_at rs l' = true)).
Proof.
  intros (H1 & _ & _ & [E|(E & H4 & _ & H5 & H6 & _)]); unfold contents_at, frozen_at.
  - rewrite <- E, H1. split; [reflexivity|]. intros Hf. destruct (frozen_ r) as [[|]|]; [tauto|split; discriminate|congruence].
  - rewrite H4, H5, H6. split; [reflexivity|]. intros _. split; discriminate.
Qed.

Lemma chosen_more d rs l rs1 l' r : chosen d rs l rs1 l' r ->
  (rs1 = rs /\ In l' (map fst rs)) \/ (empty_register_more rs rs1 /\ ~ In (target d rs l) (map fst rs)).
Proof.
  intros H. pose proof (chosen_target _ _ _ _ _ _ H) as Ht. destruct H as (H1 & H2 & H3 & [E|(E & H4 & _ & H5 & _)]).
  - left. split; [exact E|]. rewrite <- E. eapply dget_some_labels; eauto.
  - right. apply dget_none_labels in H4. split; [|congruence]. exists l', r. auto.
Qed.

Section Props.
Variable P : Type.
Variable ptrue : P -> bool.
Variable peqb : P -> P -> bool.
Notation world := (world P).
Notation M := (M P).
Notation reaches := (reaches P ptrue peqb).

Lemma gq_is n l : Forall (gq n) l -> Forall is_qubit l.
Proof. apply Forall_impl. intros v (q & -> & _). now exists q. Qed.
Lemma gb_is n l : Forall (gb n) l -> Forall is_bit l.
Proof. apply Forall_impl. intros v (q & -> & _). now exists q. Qed.

(** C12 *)
Lemma JQ_separate (v : world) c x : JQ P v -> nth_error (w_circ v) c = Some x ->
  separate (s_regs (c_q x)) /\ Forall is_qubit (circuit_qubits x).
Proof.
  intros H E. destruct (JQ_nth _ _ _ _ H E) as [A _]. split; [apply separate_nodup, A|].
  eapply gq_is, A.
Qed.
Lemma JB_separate (v : world) c x : JB P v -> nth_error (w_circ v) c = Some x ->
  separate (s_regs (c_b x)) /\ Forall is_bit (circuit_bits x).
Proof.
  intros H E. destruct (JB_nth _ _ _ _ H E) as [A _]. split; [apply separate_nodup, A|].
  eapply gb_is, A.
Qed.

Lemma C12_q (v : world) c x : reaches (own_methods P) v -> small P v -> nth_error (w_circ v) c = Some x ->
  separate (s_regs (c_q x)) /\ Forall is_qubit (circuit_qubits x).
Proof. intros R S. apply JQ_separate. now apply (JQ_reach P ptrue peqb). Qed.
Lemma C12_b_quiet (v : world) c x : reaches (quiet_ok P) v -> small P v -> nth_error (w_circ v) c = Some x ->
  separate (s_regs (c_b x)) /\ Forall is_bit (circuit_bits x).
Proof. intros R S. apply JB_separate. apply (quiet_reach P ptrue peqb v R S). Qed.
Lemma C12_b (v : world) c x : reaches (classical_ok P ptrue peqb) v -> small P v -> nth_error (w_circ v) c = Some x ->
  separate (s_regs (c_b x)) /\ Forall is_bit (circuit_bits x).
Proof. intros R S. apply JB_separate. apply (IB_reach P ptrue peqb v R S). Qed.

(** C13 *)
Lemma empty_items rs : rs = [] -> all_items rs = []. Proof. now intros ->. Qed.

Lemma view_q (v : world) c x : JQ P v -> small P v -> nth_error (w_circ v) c = Some x ->
  okS (c_q x) \/ s_regs (c_q x) <> [] ->
  exists r, let w' := set_circ v (set_nth c (with_q x (mkSide (s_regs (c_q x)) (Some r))) (w_circ v)) in
    qubits c v = (w', Ok r) /\ items (core r) = Ok (circuit_qubits x) /\
    num_qubits c v = (w', Ok (List.length (circuit_qubits x))).
Proof.
  intros Hj S E Ho. destruct (qubits_run P c v x Hj S E) as (r & Er & Rr & _ & K & Hr). exists r. cbv zeta.
  assert (Hc : contents r = circuit_qubits x).
  { destruct (s_regs (c_q x)) as [|p t] eqn:Es; [|apply K; right; congruence].
    destruct (s_cache (c_q x)) as [r'|] eqn:Ec; [|auto].
    rewrite (Hr r' eq_refl). unfold circuit_qubits. rewrite Es.
    destruct Ho as [Ho|Ho]; [|congruence]. now apply (Ho r' Ec). }
  split; [exact Er|]. split; [rewrite <- Hc; now apply regok_items|].
  unfold num_qubits. rewrite (bind_ok _ _ _ _ _ _ Er). rewrite <- Hc, <- (stop_contents r Rr). reflexivity.
Qed.
Lemma view_b (v : world) c x : IB P v -> small P v -> nth_error (w_circ v) c = Some x ->
  okS (c_b x) \/ s_regs (c_b x) <> [] ->
  exists r, let w' := set_circ v (set_nth c (with_b x (mkSide (s_regs (c_b x)) (Some r))) (w_circ v)) in
    bits c v = (w', Ok r) /\ items (core r) = Ok (circuit_bits x) /\
    num_bits c v = (w', Ok (List.length (circuit_bits x))).
Proof.
  intros [Hj Hcl] S E Ho. destruct (bits_run P c v x Hj S E) as (r & _ & Er & Rr & _ & K & Hr). exists r. cbv zeta.
  specialize (K (Hcl c x E)).
  assert (Hc : contents r = circuit_bits x).
  { destruct (s_regs (c_b x)) as [|p t] eqn:Es; [|apply K; right; congruence].
    destruct (s_cache (c_b x)) as [r'|] eqn:Ec; [|auto].
    rewrite (Hr r' eq_refl). unfold circuit_bits. rewrite Es.
    destruct Ho as [Ho|Ho]; [|congruence]. now apply (Ho r' Ec). }
  split; [exact Er|]. split; [rewrite <- Hc; now apply regok_items|].
  unfold num_bits. rewrite (bind_ok _ _ _ _ _ _ Er). rewrite <- Hc, <- (stop_contents r Rr). reflexivity.
Qed.

Lemma SV_okS (v : world) c x : SV P v -> nth_error (w_circ v) c = Some x -> okS (c_q x) /\ okS (c_b x).
Proof.
  intros [A B] E. split; [apply (Forall_nth _ _ c _ A)|apply (Forall_nth _ _ c _ B)]; now rewrite nth_map, E.
Qed.

Lemma C13_q (v : world) c x : reaches (fun w y => own_methods P w y /\ keeps_registers P y) v -> small P v ->
  nth_error (w_circ v) c = Some x ->
  exists r w', qubits c v = (w', Ok r) /\ items (core r) = Ok (circuit_qubits x) /\
    num_qubits c v = (w', Ok (List.length (circuit_qubits x))) /\
    w' = set_circ v (set_nth c (with_q x (mkSide (s_regs (c_q x)) (Some r))) (w_circ v)).
Proof.
  intros R S E.
  assert (Hj : JQ P v) by (apply (JQ_reach P ptrue peqb); [|exact S]; eapply reaches_impl; [|exact R]; simpl; tauto).
  assert (Hs : SV P v) by (apply (SV_reach P ptrue peqb); [|exact S]; eapply reaches_impl; [|exact R]; simpl; tauto).
  destruct (view_q v c x Hj S E) as (r & H1 & H2 & H3); [left; eapply SV_okS; eauto|]. eauto 8.
Qed.
Lemma C13_b_of (ok : world -> call P -> Prop) (v : world) c x :
  (forall v, reaches ok v -> small P v -> IB P v) ->
  reaches (fun w y => ok w y /\ keeps_registers P y) v -> small P v ->
  nth_error (w_circ v) c = Some x ->
  exists r w', bits c v = (w', Ok r) /\ items (core r) = Ok (circuit_bits x) /\
    num_bits c v = (w', Ok (List.length (circuit_bits x))) /\
    w' = set_circ v (set_nth c (with_b x (mkSide (s_regs (c_b x)) (Some r))) (w_circ v)).
Proof.
  intros Hi R S E.
  assert (Hj : IB P v) by (apply Hi; [|exact S]; eapply reaches_impl; [|exact R]; simpl; tauto).
  assert (Hs : SV P v) by (apply (SV_reach P ptrue peqb); [|exact S]; eapply reaches_impl; [|exact R]; simpl; tauto).
  destruct (view_b v c x Hj S E) as (r & H1 & H2 & H3); [left; eapply SV_okS; eauto|]. eauto 8.
Qed.
Lemma C13_q_registers (v : world) c x : reaches (own_methods P) v -> small P v ->
  nth_error (w_circ v) c = Some x -> s_regs (c_q x) <> [] ->
  exists r w', qubits c v = (w', Ok r) /\ items (core r) = Ok (circuit_qubits x) /\
    num_qubits c v = (w', Ok (List.length (circuit_qubits x))).
Proof.
  intros R S E Hn. destruct (view_q v c x (JQ_reach P ptrue peqb v R S) S E) as (r & H1 & H2 & H3); [auto|]. eauto 8.
Qed.

(** C21 *)
Lemma C21_keep (v : world) c x : reaches (classical_ok P ptrue peqb) v -> small P v -> nth_error (w_circ v) c = Some x ->
  exists w' x', reset c true v = (w', Ok tt) /\ nth_error (w_circ w') c = Some x' /\
    c_ops x' = [] /\ c_locked x' = false /\ c_ctx x' = None /\
    s_regs (c_q x') = s_regs (c_q x) /\ s_regs (c_b x') = s_regs (c_b x) /\
    (forall b, In (IBit b) (circuit_bits x) -> bit_value P w' b = None) /\
    (s_regs (c_b x) <> [] -> forall b, ~ In (IBit b) (circuit_bits x) -> nth_error (w_bit w') b = nth_error (w_bit v) b) /\
    w_qubit w' = w_qubit v /\ others_same c v w'.
Proof.
  intros R S E. pose proof (IB_reach P ptrue peqb v R S) as H.
  destruct (reset_keep_run P v c x H S E) as (bs & r & Er & Hin & Hout & _ & Hc).
  eexists _, _. split; [exact Er|]. split; [cbn; eapply set_nth_same; eauto|].
  split; [reflexivity|]. split; [reflexivity|]. split; [reflexivity|]. split; [reflexivity|]. split; [reflexivity|].
  split; [|split; [|split; [reflexivity|]]].
  - intros b Hb. destruct (s_regs (c_b x)) as [|p t] eqn:Es.
    + unfold circuit_bits in Hb. rewrite Es in Hb. easy.
    + change (bit_value P (set_bit v bs) b = None). apply Hin. rewrite Hc; [exact Hb|]. right. discriminate.
  - intros Hn b Hb. cbn. apply Hout. rewrite Hc by auto. exact Hb.
  - intros d Hd. cbn. apply set_nth_other. congruence.
Qed.
Lemma C21_drop (v : world) c x : nth_error (w_circ v) c = Some x ->
  exists w' x', reset c false v = (w', Ok tt) /\ nth_error (w_circ w') c = Some x' /\
    c_ops x' = [] /\ c_locked x' = false /\ c_ctx x' = None /\
    s_regs (c_q x') = [] /\ s_regs (c_b x') = [] /\
    w_bit w' = w_bit v /\ w_qubit w' = w_qubit v /\ others_same c v w'.
Proof.
  intros E. eexists _, _. split; [exact (reset_drop_run P v c x E)|]. split; [cbn; eapply set_nth_same; eauto|].
  split; [reflexivity|]. split; [reflexivity|]. split; [reflexivity|]. split; [reflexivity|]. split; [reflexivity|].
  split; [reflexivity|]. split; [reflexivity|]. intros d Hd. cbn. apply set_nth_other. congruence.
Qed.

(** C22 *)
Lemma find_q_run (v : world) c x u : nth_error (w_circ v) c = Some x -> find_qubit c u v = (v, find_in 0 u (s_regs (c_q x))).
Proof. intros E. unfold find_qubit. now rewrite (bind_ok _ _ _ _ _ _ (get_circ_some _ c v x E)). Qed.
Lemma find_b_run (v : world) c x u : nth_error (w_circ v) c = Some x -> find_bit c u v = (v, find_in 0 u (s_regs (c_b x))).
Proof. intros E. unfold find_bit. now rewrite (bind_ok _ _ _ _ _ _ (get_circ_some _ c v x E)). Qed.

Lemma found_of good u rs : prim u -> regs_ok good rs -> found rs u (find_in 0 u rs).
Proof.
  intros Hp Hr. destruct (find_in_iff good u rs Hp Hr) as (H1 & H2 & H3).
  split; [exact H1|]. intros e. split.
  - intros H. pose proof (H3 e H). subst e. split; [reflexivity|]. now apply H2.
  - intros [-> H]. now apply H2.
Qed.

Lemma C22_find_q (v : world) c x q : reaches (own_methods P) v -> small P v -> nth_error (w_circ v) c = Some x ->
  exists out, find_qubit c (IQubit q) v = (v, out) /\ found (s_regs (c_q x)) (IQubit q) out.
Proof.
  intros R S E. pose proof (JQ_nth _ _ _ _ (JQ_reach P ptrue peqb v R S) E) as [A _].
  eexists. split; [apply find_q_run; eauto|]. eapply found_of; [|exact A]. left. now exists q.
Qed.
Lemma C22_find_b (v : world) c x b : reaches (classical_ok P ptrue peqb) v -> small P v -> nth_error (w_circ v) c = Some x ->
  exists out, find_bit c (IBit b) v = (v, out) /\ found (s_regs (c_b x)) (IBit b) out.
Proof.
  intros R S E. destruct (IB_reach P ptrue peqb v R S) as [Hj _]. pose proof (JB_nth _ _ _ _ Hj E) as [A _].
  eexists. split; [apply find_b_run; eauto|]. eapply found_of; [|exact A]. right. now exists b.
Qed.

Lemma exists_q (v : world) c x : JQ P v -> nth_error (w_circ v) c = Some x ->
  Forall (exists_in P v) (circuit_qubits x) /\
  forall l r, dget label_eqb l (s_regs (c_q x)) = Some r -> Forall (exists_in P v) (contents r).
Proof.
  intros H E. pose proof (JQ_nth _ _ _ _ H E) as [A _].
  assert (F : Forall (exists_in P v) (circuit_qubits x)).
  { eapply Forall_impl; [|apply (ro_good _ _ A)]. intros u Hu. now left. }
  split; [exact F|]. intros l r Hl. apply Forall_forall. intros u Hu. rewrite Forall_forall in F. apply F.
  eapply in_items; eauto.
Qed.
Lemma exists_b (v : world) c x : JB P v -> nth_error (w_circ v) c = Some x ->
  Forall (exists_in P v) (circuit_bits x) /\
  forall l r, dget label_eqb l (s_regs (c_b x)) = Some r -> Forall (exists_in P v) (contents r).
Proof.
  intros H E. pose proof (JB_nth _ _ _ _ H E) as [A _].
  assert (F : Forall (exists_in P v) (circuit_bits x)).
  { eapply Forall_impl; [|apply (ro_good _ _ A)]. intros u Hu. now right. }
  split; [exact F|]. intros l r Hl. apply Forall_forall. intros u Hu. rewrite Forall_forall in F. apply F.
  eapply in_items; eauto.
Qed.

Lemma looked_up_q (v : world) c x l rl all : JQ P v -> nth_error (w_circ v) c = Some x ->
  exists out, get_qubit c l rl all v = (v, out) /\ looked_up v (s_regs (c_q x)) l rl all out.
Proof.
  intros H E. eexists. split; [eapply get_qubit_run; eauto|].
  destruct (exists_q v c x H E) as [F1 F2]. pose proof (JQ_nth _ _ _ _ H E) as A.
  unfold looked_up. destruct (label_true rl) eqn:Et.
  - pose proof (searched_one (c_q x) rl _ A Et) as Es. destruct (dget label_eqb rl (s_regs (c_q x))) as [r|] eqn:Er; rewrite Es; cbn [bind].
    + specialize (F2 _ _ Er). destruct all; [now apply scan_all|now apply scan_first].
    + reflexivity.
  - rewrite (searched_all (c_q x) rl _ A Et). cbn [bind]. destruct all; [now apply scan_all|now apply scan_first].
Qed.
Lemma looked_up_b (v : world) c x l rl all : JB P v -> nth_error (w_circ v) c = Some x ->
  exists out, get_bit c l rl all v = (v, out) /\ looked_up v (s_regs (c_b x)) l rl all out.
Proof.
  intros H E. eexists. split; [eapply get_bit_run; eauto|].
  destruct (exists_b v c x H E) as [F1 F2]. pose proof (JB_nth _ _ _ _ H E) as A.
  unfold looked_up. destruct (label_true rl) eqn:Et.
  - pose proof (searched_one (c_b x) rl _ A Et) as Es. destruct (dget label_eqb rl (s_regs (c_b x))) as [r|] eqn:Er; rewrite Es; cbn [bind].
    + specialize (F2 _ _ Er). destruct all; [now apply scan_all|now apply scan_first].
    + reflexivity.
  - rewrite (searched_all (c_b x) rl _ A Et). cbn [bind]. destruct all; [now apply scan_all|now apply scan_first].
Qed.

(** C23, C24 *)
Lemma dget_dset_other l l' (r : register) rs : l' <> l -> dget label_eqb l' (dset label_eqb l r rs) = dget label_eqb l' rs.
Proof.
  intros n. induction rs as [|[k s] rs IH]; simpl.
  - destruct (label_eqb_spec l' l); congruence.
  - destruct (label_eqb_spec l k) as [->|m]; simpl.
    + destruct (label_eqb_spec l' k); congruence.
    + destruct (label_eqb l' k); [reflexivity|exact IH].
Qed.
Lemma dget_dset_same l (r : register) rs : dget label_eqb l (dset label_eqb l r rs) = Some r.
Proof.
  induction rs as [|[k s] rs IH]; simpl.
  - destruct (label_eqb_spec l l); congruence.
  - destruct (label_eqb_spec l k) as [->|m]; simpl.
    + destruct (label_eqb_spec k k); congruence.
    + destruct (label_eqb_spec l k); [congruence|exact IH].
Qed.
Lemma dget_more l l' (r : register) rs : l' <> l -> dget label_eqb l' (rs ++ [(l, r)]) = dget label_eqb l' rs.
Proof.
  intros n. induction rs as [|[k s] rs IH]; simpl.
  - destruct (label_eqb_spec l' l); congruence.
  - destruct (label_eqb l' k); [reflexivity|exact IH].
Qed.
Lemma chosen_others d rs l rs1 l' r r' : chosen d rs l rs1 l' r ->
  forall k, k <> l' -> dget label_eqb k (dset label_eqb l' r' rs1) = dget label_eqb k rs.
Proof.
  intros (_ & _ & _ & H) k Hk. rewrite dget_dset_other by exact Hk.
  destruct H as [->|(-> & _)]; [reflexivity|now apply dget_more].
Qed.
Lemma chosen_frozen good d rs l rs1 l' r : regs_ok good rs -> chosen d rs l rs1 l' r -> frozen_ r <> None.
Proof.
  intros H (H1 & _ & _ & [E|(_ & _ & _ & _ & H2 & _)]); [|congruence].
  rewrite E in H1. pose proof (ro_frozen _ _ H) as F. rewrite Forall_forall in F.
  destruct (dget_split _ _ _ H1) as (a & b & Ea & _). apply (F (l', r)). rewrite Ea. apply in_app_iff. right. now left.
Qed.

Lemma bad_error mk rs d e : Err (A := unit) TypeError = Err e <-> add_error mk rs d ABad e.
Proof.
  unfold add_error. split.
  - intros [= <-]. auto.
  - intros [[-> _]|[(_ & q & H & _)|(_ & H & _)]]; [reflexivity|discriminate|congruence].
Qed.
Lemma dup_error mk rs d i : In (mk i) (all_items rs) ->
  forall e, Err (A := unit) ValueError = Err e <-> add_error mk rs d (AItem i) e.
Proof.
  intros Hi e. unfold add_error. split.
  - intros [= <-]. right. left. eauto.
  - intros [[_ H]|[(-> & _)|(_ & _ & H & _)]]; [discriminate|reflexivity|]. exfalso. eauto.
Qed.
Lemma frozen_error (mk : nat -> item) rs d a : a <> ABad -> (forall i, a = AItem i -> ~ In (mk i) (all_items rs)) -> frozen_at rs d = true ->
  forall e, Err (A := unit) RegisterError = Err e <-> add_error mk rs d a e.
Proof.
  intros Hb Hi Hf e. unfold add_error. split.
  - intros [= <-]. right. right. split; [reflexivity|]. split; [exact Hb|]. split; [|exact Hf]. intros (q & H1 & H2). now apply (Hi q).
  - intros [[_ H]|[(_ & q & H1 & H2)|(-> & _)]]; [congruence|exfalso; now apply (Hi q)|reflexivity].
Qed.
Lemma no_error (mk : nat -> item) rs d a : a <> ABad -> (forall i, a = AItem i -> ~ In (mk i) (all_items rs)) -> frozen_at rs d = false ->
  forall e, Ok tt = Err e <-> add_error mk rs d a e.
Proof.
  intros Hb Hi Hf e. unfold add_error. split; [discriminate|].
  intros [[_ H]|[(_ & q & H1 & H2)|(_ & _ & _ & H)]]; [congruence|exfalso; now apply (Hi q)|congruence].
Qed.

Lemma add_qubit_cases (v : world) c x a l : JQ P v -> small P v -> nth_error (w_circ v) c = Some x ->
  (forall q, a = AItem q -> q < List.length (w_qubit v)) ->
  let d := target (default_qlabel x) (s_regs (c_q x)) l in
  exists w' o x', add_qubit c a l v = (w', o) /\ nth_error (w_circ w') c = Some x' /\
    others_same c v w' /\ c_b x' = c_b x /\ c_ops x' = c_ops x /\ w_bit w' = w_bit v /\
    match o with
    | Ok _ => exists q r', dget label_eqb d (s_regs (c_q x')) = Some r' /\
         contents r' = contents_at (s_regs (c_q x)) d ++ [IQubit q] /\
         (forall i, a = AItem i -> q = i) /\ (a = ANone -> q = List.length (w_qubit v)) /\
         (forall l', l' <> d -> dget label_eqb l' (s_regs (c_q x')) = dget label_eqb l' (s_regs (c_q x)))
    | Err e =>
        (s_regs (c_q x') = s_regs (c_q x) \/
         (empty_register_more (s_regs (c_q x)) (s_regs (c_q x')) /\ ~ In d (map fst (s_regs (c_q x)))))
    end /\
    (forall e, o = Err e <-> add_error IQubit (s_regs (c_q x)) d a e).
Proof.
  intros Hj S E Hq d. assert (Hb : a = ABad \/ a <> ABad) by (destruct a; [right|right|left]; congruence).
  destruct Hb as [->|Hb].
  { exists v, (Err TypeError), x. split; [reflexivity|]. split; [exact E|]. split; [easy|].
    split; [reflexivity|]. split; [reflexivity|]. split; [reflexivity|]. split; [now left|]. apply bad_error. }
  destruct (add_qubit_run P c a l v x Hj S E Hb Hq) as (s & l' & r & Hch & Hs & Hadd).
  pose proof (chosen_target _ _ _ _ _ _ Hch) as Ht.
  change (qlabel x LNone) with (default_qlabel x) in *. fold d in Ht. subst l'.
  destruct (JQ_nth _ _ _ _ Hj E) as [Hro _].
  pose proof (chosen_frozen _ _ _ _ _ _ _ Hro Hch) as Hfn.
  destruct (chosen_at _ _ _ _ _ _ Hch) as [Hcon Hfro]. specialize (Hfro Hfn).
  pose proof (chosen_items _ _ _ _ _ _ Hch) as Hit.
  assert (Hm : s_regs s = s_regs (c_q x) \/ (empty_register_more (s_regs (c_q x)) (s_regs s) /\ ~ In d (map fst (s_regs (c_q x)))))
    by (destruct (chosen_more _ _ _ _ _ _ Hch) as [[H _]|H]; auto).
  assert (Hcq : circuit_qubits (with_q x s) = all_items (s_regs (c_q x))) by exact Hit.
  inversion Hadd as [i rv H1 H2 H3 H4 H5|rv ls H1 H2 H3 H4 H5 H6|i ls r' H1 H2 H3 H4 H5 H6 H7 H8].
  all: eexists _, _, _; split; [reflexivity|]; split; [cbn; rewrite ?set_nth_set_nth; eapply set_nth_same; exact E|].
  all: split; [intros k Hk; cbn; rewrite ?set_nth_set_nth; apply set_nth_other; congruence|].
  all: split; [reflexivity|]; split; [reflexivity|]; split; [reflexivity|].
  all: rewrite Hcq in *.
  - split; [exact Hm|]. subst a. now apply dup_error.
  - split; [exact Hm|]. apply frozen_error; auto. now apply Hfro.
  - split; [|apply no_error; auto; destruct (frozen_at _ d); [|reflexivity]; exfalso;
             assert (frozen_ r = Some true) by (now apply Hfro); congruence].
    exists i, r'. split; [apply dget_dset_same|]. rewrite H7, Hcon. split; [reflexivity|].
    split; [intros k ->; exact H3|]. split; [intros ->; exact H3|].
    exact (chosen_others _ _ _ _ _ _ r' Hch).
Qed.

Lemma add_bit_cases (v : world) c x a l : JB P v -> small P v -> nth_error (w_circ v) c = Some x -> clear_at P v x ->
  (forall b, a = AItem b -> b < List.length (w_bit v)) ->
  let d := target (default_clabel x) (s_regs (c_b x)) l in
  exists w' o x', add_bit c a l v = (w', o) /\ nth_error (w_circ w') c = Some x' /\
    others_same c v w' /\ c_q x' = c_q x /\ c_ops x' = c_ops x /\ w_qubit w' = w_qubit v /\
    (exists more, w_bit w' = w_bit v ++ more) /\
    match o with
    | Ok _ => exists u r', dget label_eqb d (s_regs (c_b x')) = Some r' /\
         contents r' = contents_at (s_regs (c_b x)) d ++ [u] /\
         (forall i, a = AItem i -> bit_value P v i <> Some false ->
            (bit_value P v i = Some true -> List.length (contents_at (s_regs (c_b x)) d) <> 1) -> u = IBit i) /\
         (forall i, a = AItem i -> bit_value P v i = Some false -> u = IBit (List.length (w_bit v))) /\
         (a = ANone -> u = IBit (List.length (w_bit v))) /\
         (forall l', l' <> d -> dget label_eqb l' (s_regs (c_b x')) = dget label_eqb l' (s_regs (c_b x)))
    | Err e =>
        (s_regs (c_b x') = s_regs (c_b x) \/
         (empty_register_more (s_regs (c_b x)) (s_regs (c_b x')) /\ ~ In d (map fst (s_regs (c_b x)))))
    end /\
    (forall e, o = Err e <-> add_error IBit (s_regs (c_b x)) d a e).
Proof.
  intros Hj S E Hcl Hq d. assert (Hb : a = ABad \/ a <> ABad) by (destruct a; [right|right|left]; congruence).
  destruct Hb as [->|Hb].
  { exists v, (Err TypeError), x. split; [reflexivity|]. split; [exact E|]. split; [easy|].
    split; [reflexivity|]. split; [reflexivity|]. split; [reflexivity|].
    split; [exists []; now rewrite app_nil_r|]. split; [now left|]. apply bad_error. }
  destruct (add_bit_run P c a l v x Hj S E Hcl Hb Hq) as (s & l' & r & Hch & Hs & Hadd).
  pose proof (chosen_target _ _ _ _ _ _ Hch) as Ht.
  change (clabel x LNone) with (default_clabel x) in *. fold d in Ht. subst l'.
  destruct (JB_nth _ _ _ _ Hj E) as [Hro _].
  pose proof (chosen_frozen _ _ _ _ _ _ _ Hro Hch) as Hfn.
  destruct (chosen_at _ _ _ _ _ _ Hch) as [Hcon Hfro]. specialize (Hfro Hfn).
  pose proof (chosen_items _ _ _ _ _ _ Hch) as Hit.
  assert (Hm : s_regs s = s_regs (c_b x) \/ (empty_register_more (s_regs (c_b x)) (s_regs s) /\ ~ In d (map fst (s_regs (c_b x)))))
    by (destruct (chosen_more _ _ _ _ _ _ Hch) as [[H _]|H]; auto).
  assert (Hcq : circuit_bits (with_b x s) = all_items (s_regs (c_b x))) by exact Hit.
  inversion Hadd as [i rv H1 H2 H3 H4 H5|rv ls H1 H2 H3 H4 H5 H6|i ls r' H1 H2 H3 H4 H5 H6 H7 H8].
  all: eexists _, _, _; split; [reflexivity|]; split; [cbn; rewrite ?set_nth_set_nth; eapply set_nth_same; exact E|].
  all: split; [intros k Hk; cbn; rewrite ?set_nth_set_nth; apply set_nth_other; congruence|].
  all: split; [reflexivity|]; split; [reflexivity|]; split; [reflexivity|].
  all: rewrite Hcq in *.
  - split; [exists []; now rewrite app_nil_r|]. split; [exact Hm|]. subst a. now apply dup_error.
  - split; [exists ls; reflexivity|]. split; [exact Hm|]. apply frozen_error; auto. now apply Hfro.
  - split; [exists ls; reflexivity|].
    split; [|apply no_error; auto; destruct (frozen_at _ d); [|reflexivity]; exfalso;
             assert (frozen_ r = Some true) by (now apply Hfro); congruence].
    eexists _, r'. split; [apply dget_dset_same|]. rewrite H7, Hcon. split; [reflexivity|].
    assert (Hnew : bit_used P v a = None -> seen (w_bit v ++ ls) (List.length (contents_at (s_regs (c_b x)) d)) (IBit i) =
                     IBit (List.length (w_bit v))).
    { intros Hn. rewrite Hn in H3, H4. subst i ls. unfold seen, numeq.
      rewrite nth_error_app2 by lia. rewrite Nat.sub_diag. reflexivity. }
    split; [|split; [|split; [|exact (chosen_others _ _ _ _ _ _ r' Hch)]]].
    + intros k Hk H0 H9. rewrite Hk in H3, H4. unfold bit_used, bit_true in H3, H4. unfold bit_value in H0, H9.
      specialize (Hq k Hk). apply nth_error_Some in Hq.
      destruct (nth_error (w_bit v) k) as [[lb [[|]|]]|] eqn:Eb; try congruence; subst i ls; unfold seen, numeq;
        rewrite app_nil_r, Eb; try reflexivity.
      specialize (H9 eq_refl). destruct (Z.eqb_spec 1 (zn (List.length (contents_at (s_regs (c_b x)) d)))); [lia|reflexivity].
    + intros k Hk H0. apply Hnew. rewrite Hk. unfold bit_used, bit_true. unfold bit_value in H0.
      destruct (nth_error (w_bit v) k) as [[lb [[|]|]]|]; try discriminate. reflexivity.
    + intros ->. now apply Hnew.
Qed.

(** C23 for registers *)
Lemma add_qregister_cases (v : world) c x n l : JQ P v -> small P v -> ssize_ok (zn (List.length (w_qubit v) + n) + 1) = true ->
  nth_error (w_circ v) c = Some x ->
  let d := match l with LNone => default_qlabel x | _ => l end in
  (In d (map fst (s_regs (c_q x))) /\ add_qregister c n l v = (v, Err ValueError)) \/
  (~ In d (map fst (s_regs (c_q x))) /\ exists w' x' r, add_qregister c n l v = (w', Ok tt) /\ nth_error (w_circ w') c = Some x' /\
     s_regs (c_q x') = s_regs (c_q x) ++ [(d, r)] /\ contents r = map IQubit (seq (List.length (w_qubit v)) n) /\
     frozen_ r = Some false /\ c_b x' = c_b x /\ c_ops x' = c_ops x /\ others_same c v w' /\ w_bit w' = w_bit v /\
     exists k, w_qubit w' = w_qubit v ++ map (fun i => LStr (py_str i)) (seq k n) /\
       (s_cache (c_q x) = None \/ s_regs (c_q x) <> [] -> k = List.length (circuit_qubits x))).
Proof.
  intros Hj S Room E d. change d with (qlabel x l).
  destruct (dget label_eqb (qlabel x l) (s_regs (c_q x))) as [r|] eqn:Ed.
  - left. split; [eapply dget_some_labels; eauto|]. eapply add_qregister_taken; eauto.
  - right. split; [now apply dget_none_labels|].
    destruct (add_qregister_run P c n l v x Hj S Room E Ed) as (k & r & Er & Rr & Cr & Fr & Hk).
    eexists _, _, r. split; [exact Er|]. split; [cbn; eapply set_nth_same; eauto|].
    split; [reflexivity|]. split; [exact Cr|]. split; [exact Fr|]. split; [reflexivity|]. split; [reflexivity|].
    split; [intros e He; cbn; apply set_nth_other; congruence|]. split; [reflexivity|]. exists k. auto.
Qed.
Lemma add_cregister_cases (v : world) c x n l : JB P v -> small P v -> ssize_ok (zn (List.length (w_bit v) + n) + 1) = true ->
  nth_error (w_circ v) c = Some x ->
  let d := match l with LNone => default_clabel x | _ => l end in
  (In d (map fst (s_regs (c_b x))) /\ add_cregister c n l v = (v, Err ValueError)) \/
  (~ In d (map fst (s_regs (c_b x))) /\ exists w' x' r, add_cregister c n l v = (w', Ok tt) /\ nth_error (w_circ w') c = Some x' /\
     s_regs (c_b x') = s_regs (c_b x) ++ [(d, r)] /\ contents r = map IBit (seq (List.length (w_bit v)) n) /\
     frozen_ r = Some false /\ c_q x' = c_q x /\ c_ops x' = c_ops x /\ others_same c v w' /\ w_qubit w' = w_qubit v /\
     exists k, w_bit w' = w_bit v ++ map (fun i => (LStr (py_str i), None)) (seq k n) /\
       (s_cache (c_b x) = None \/ s_regs (c_b x) <> [] -> k = List.length (circuit_bits x))).
Proof.
  intros Hj S Room E d. change d with (clabel x l).
  destruct (dget label_eqb (clabel x l) (s_regs (c_b x))) as [r|] eqn:Ed.
  - left. split; [eapply dget_some_labels; eauto|]. eapply add_cregister_taken; eauto.
  - right. split; [now apply dget_none_labels|].
    destruct (add_cregister_run P c n l v x Hj S Room E Ed) as (k & r & Er & Rr & Cr & Fr & Hk).
    eexists _, _, r. split; [exact Er|]. split; [cbn; eapply set_nth_same; eauto|].
    split; [reflexivity|]. split; [exact Cr|]. split; [exact Fr|]. split; [reflexivity|]. split; [reflexivity|].
    split; [intros e He; cbn; apply set_nth_other; congruence|]. split; [reflexivity|]. exists k. auto.
Qed.

(** C26 *)
Lemma LI_free_q (v : world) c x : LI P v -> nth_error (w_circ v) c = Some x -> ~ In (default_qlabel x) (map fst (s_regs (c_q x))).
Proof.
  intros [A _] E. assert (H : placed "qreg" (qls x)) by (apply (Forall_nth _ _ c _ A); now rewrite nth_map, E).
  apply placed_free in H. unfold default_qlabel. unfold qls in H. now rewrite map_length in H.
Qed.
Lemma LI_free_b (v : world) c x : LI P v -> nth_error (w_circ v) c = Some x -> ~ In (default_clabel x) (map fst (s_regs (c_b x))).
Proof.
  intros [_ A] E. assert (H : placed "creg" (bls x)) by (apply (Forall_nth _ _ c _ A); now rewrite nth_map, E).
  apply placed_free in H. unfold default_clabel. unfold bls in H. now rewrite map_length in H.
Qed.

Lemma C26_q (v : world) c x n :
  reaches (fun w y => own_methods P w y /\ own_labels y) v -> small P v ->
  ssize_ok (zn (List.length (w_qubit v) + n) + 1) = true -> nth_error (w_circ v) c = Some x ->
  exists w' x' r, add_qregister c n LNone v = (w', Ok tt) /\ nth_error (w_circ w') c = Some x' /\
    s_regs (c_q x') = s_regs (c_q x) ++ [(default_qlabel x, r)] /\ List.length (contents r) = n.
Proof.
  intros R S Room E.
  assert (Hj : JQ P v) by (apply (JQ_reach P ptrue peqb); [|exact S]; eapply reaches_impl; [|exact R]; simpl; tauto).
  assert (Hl : LI P v) by (apply (LI_reach P ptrue peqb); [|exact S]; eapply reaches_impl; [|exact R]; simpl; tauto).
  destruct (add_qregister_cases v c x n LNone Hj S Room E) as [[H _]|(_ & w' & x' & r & H1 & H2 & H3 & H4 & _)].
  - now apply (LI_free_q v c x Hl E) in H.
  - exists w', x', r. split; [exact H1|]. split; [exact H2|]. split; [exact H3|]. now rewrite H4, map_length, seq_length.
Qed.
Lemma C26_b (v : world) c x n :
  reaches (fun w y => classical_ok P ptrue peqb w y /\ own_labels y) v -> small P v ->
  ssize_ok (zn (List.length (w_bit v) + n) + 1) = true -> nth_error (w_circ v) c = Some x ->
  exists w' x' r, add_cregister c n LNone v = (w', Ok tt) /\ nth_error (w_circ w') c = Some x' /\
    s_regs (c_b x') = s_regs (c_b x) ++ [(default_clabel x, r)] /\ List.length (contents r) = n.
Proof.
  intros R S Room E.
  assert (Hj : IB P v) by (apply (IB_reach P ptrue peqb); [|exact S]; eapply reaches_impl; [|exact R]; simpl; tauto).
  assert (Hl : LI P v) by (apply (LI_reach P ptrue peqb); [|exact S]; eapply reaches_impl; [|exact R]; simpl; tauto).
  destruct (add_cregister_cases v c x n LNone (proj1 Hj) S Room E) as [[H _]|(_ & w' & x' & r & H1 & H2 & H3 & H4 & _)].
  - now apply (LI_free_b v c x Hl E) in H.
  - exists w', x', r. split; [exact H1|]. split; [exact H2|]. split; [exact H3|]. now rewrite H4, map_length, seq_length.
Qed.

(** C24 *)
Lemma C24_main (v : world) c x b l :
  reaches (classical_ok P ptrue peqb) v -> small P v -> nth_error (w_circ v) c = Some x ->
  clear_at P v x -> b < List.length (w_bit v) -> ~ In (IBit b) (circuit_bits x) ->
  let d := target (default_clabel x) (s_regs (c_b x)) l in
  frozen_at (s_regs (c_b x)) d = false -> bit_value P v b <> Some false ->
  (bit_value P v b = Some true -> List.length (contents_at (s_regs (c_b x)) d) <> 1) ->
  exists w' x' r', add_bit c (AItem b) l v = (w', Ok tt) /\ nth_error (w_circ w') c = Some x' /\
    dget label_eqb d (s_regs (c_b x')) = Some r' /\
    contents r' = contents_at (s_regs (c_b x)) d ++ [IBit b].
Proof.
  intros R S E Hcl Hb Hi d Hf H0 H1. destruct (IB_reach P ptrue peqb v R S) as [Hj _].
  destruct (add_bit_cases v c x (AItem b) l Hj S E Hcl) as (w' & o & x' & H2 & H3 & _ & _ & _ & _ & _ & H4 & H5).
  { now intros i [= <-]. }
  fold d in H4, H5. destruct o as [[]|e].
  - destruct H4 as (u & r' & H6 & H7 & H8 & _). specialize (H8 b eq_refl H0 H1). subst u. exists w', x', r'. auto.
  - exfalso. destruct (proj1 (H5 e) eq_refl) as [[_ H]|[(_ & q & [= <-] & H)|(_ & _ & _ & H)]]; congruence || contradiction.
Qed.
End Props.

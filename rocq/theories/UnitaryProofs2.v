(** Proofs about build_unitary. *)
From Coq Require Import List ZArith NArith Bool Lia.
From Verif Require Import Py CRing KernelModel KernelSpec KernelBits KernelProofs KernelProofs2
  SimModel SimSpec SimProofs SimProofs2 UnitaryModel UnitarySpec UnitaryProofs.
Import ListNotations.
Local Open Scope N_scope.

Section U.
Variable K : cring.
Add Ring KringU2 : (r_theory K).
Notation mat := (N -> N -> K).

Lemma sumf_two (l : list N) (f : N -> K) a b : NoDup l -> In a l -> In b l -> a <> b ->
  (forall j, In j l -> j <> a -> j <> b -> f j = r0) -> sumf l f = radd (f a) (f b).
Proof.
  intros Hn Ha Hb Hab Hz.
  transitivity (radd (sumf l (fun j => if j =? a then f j else r0)) (sumf l (fun j => if j =? a then r0 else f j))).
  { rewrite <- sumf_add. apply sumf_ext. intros j _. destruct (j =? a); ring. }
  rewrite (sumf_single K l (fun j => if j =? a then f j else r0) a); auto.
  - rewrite (sumf_single K l (fun j => if j =? a then r0 else f j) b); auto.
    + rewrite N.eqb_refl. destruct (N.eqb_spec b a); [congruence|reflexivity].
    + intros j Hj Hjb. destruct (N.eqb_spec j a); [reflexivity|]. now apply Hz.
  - intros j Hj Hja. destruct (N.eqb_spec j a); [contradiction|reflexivity].
Qed.

Lemma qset_lt le n i q b : q < n -> i < 2 ^ n -> qset le n i q b < 2 ^ n.
Proof.
  intros Hq Hi. apply testbit_lt. intros p Hp. rewrite qset_testbit.
  pose proof (bitpos_lt le n q Hq). destruct (N.eqb_spec p (bitpos le n q)); [lia|]. now apply (lt_testbit n).
Qed.

Lemma qbit_qset le n i q b : qbit le n (qset le n i q b) q = b.
Proof. unfold qbit. rewrite qset_testbit. now rewrite N.eqb_refl. Qed.

Lemma qset_qset le n i q b c : qset le n (qset le n i q b) q c = qset le n i q c.
Proof.
  apply N.bits_inj. intros p. rewrite !qset_testbit. destruct (p =? bitpos le n q); reflexivity.
Qed.

Lemma qset_same le n i q : qset le n i q (qbit le n i q) = i.
Proof.
  apply N.bits_inj. intros p. rewrite qset_testbit. unfold qbit.
  destruct (N.eqb_spec p (bitpos le n q)) as [->|]; reflexivity.
Qed.

Theorem ctrl_entry_op n cs t (u : mat) v i : t < n -> i < 2 ^ n ->
  mat_vec n (ctrl_entry n cs t u) v i = op_apply false n u [t] cs v i.
Proof.
  intros Ht Hi. unfold mat_vec, ctrl_entry, op_apply.
  destruct (forallb (qbit false n i) cs).
  - change (2 ^ N.of_nat (length [t])) with 2. change (Nrange 2) with [0; 1].
    cbn [sumf fold_right read write]. change (N.odd 0) with false. change (N.odd 1) with true.
    set (i0 := qset false n i t false). set (i1 := qset false n i t true).
    rewrite (sumf_two _ _ i0 i1).
    + assert (E0 : qset false n i0 t false = i0) by apply qset_qset.
      assert (E1 : qset false n i1 t false = i0) by apply qset_qset.
      rewrite E0, E1, N.eqb_refl. unfold i0 at 1, i1 at 1. rewrite !qbit_qset.
      replace (N.b2n (qbit false n i t) + 2 * 0) with (N.b2n (qbit false n i t)) by lia.
      cbn [N.b2n]. ring.
    + apply NoDup_Nrange.
    + apply In_Nrange. now apply qset_lt.
    + apply In_Nrange. now apply qset_lt.
    + intros E. assert (H : qbit false n i0 t = qbit false n i1 t) by now rewrite E.
      unfold i0, i1 in H. rewrite !qbit_qset in H. discriminate.
    + intros j Hj H0 H1. fold i0. destruct (N.eqb_spec i0 (qset false n j t false)) as [E|_]; [|ring].
      exfalso. rewrite <- (qset_same false n j t) in H0, H1.
      destruct (qbit false n j t) eqn:Eb.
      * apply H1. unfold i1. rewrite <- (qset_qset false n i t false true). fold i0. rewrite E. now rewrite qset_qset.
      * apply H0. now rewrite <- E.
  - rewrite (sumf_single K _ _ i).
    + rewrite N.eqb_refl. ring.
    + apply NoDup_Nrange.
    + now apply In_Nrange.
    + intros j _ Hj. destruct (N.eqb_spec i j); [congruence|]. ring.
Qed.

Lemma mat_vec_matmul n (A B : mat) v i :
  mat_vec n (matmul K (2 ^ n) A B) v i = mat_vec n A (mat_vec n B v) i.
Proof.
  unfold mat_vec, matmul.
  transitivity (sumf (Nrange (2 ^ n)) (fun j => sumf (Nrange (2 ^ n)) (fun k => rmul (A i k) (rmul (B k j) (v j))))).
  { apply sumf_ext. intros j _. rewrite <- sumf_scale_r. apply sumf_ext. intros k _. ring. }
  rewrite sumf_swap. apply sumf_ext. intros k _. apply sumf_scale.
Qed.

Lemma mat_vec_ext n (A B : mat) v w i : i < 2 ^ n -> (forall j, j < 2 ^ n -> A i j = B i j) ->
  (forall j, j < 2 ^ n -> v j = w j) -> mat_vec n A v i = mat_vec n B w i.
Proof.
  intros Hi HA Hv. apply sumf_ext. intros j Hj. apply In_Nrange in Hj. now rewrite HA, Hv.
Qed.

Lemma mat_vec_eye n v i : i < 2 ^ n -> mat_vec n (eye K) v i = v i.
Proof.
  intros Hi. unfold mat_vec, eye. rewrite (sumf_single K _ _ i).
  - rewrite N.eqb_refl. ring.
  - apply NoDup_Nrange.
  - now apply In_Nrange.
  - intros j _ Hj. destruct (N.eqb_spec i j); [congruence|]. ring.
Qed.

(** ** Kronecker products *)
Lemma half_bit i p : N.testbit (i / 2) p = N.testbit i (p + 1).
Proof. rewrite <- N.div2_div, N.div2_spec, N.shiftr_spec'. reflexivity. Qed.

Lemma halves i j : i = j <-> i / 2 = j / 2 /\ i mod 2 = j mod 2.
Proof.
  split; [intros ->; auto|]. intros [H1 H2]. rewrite (N.div_mod i 2), (N.div_mod j 2) by lia. congruence.
Qed.

Lemma kron_eye i j : kron K 2 (eye K) (eye K) i j = eye K i j.
Proof.
  unfold kron, eye. destruct (N.eqb_spec i j) as [->|H].
  - rewrite !N.eqb_refl. ring.
  - destruct (N.eqb_spec (i / 2) (j / 2)), (N.eqb_spec (i mod 2) (j mod 2)); try ring.
    exfalso. apply H. apply halves. auto.
Qed.

Lemma mod2_bit i : i mod 2 = N.b2n (N.testbit i 0).
Proof. rewrite <- N.bit0_mod. now rewrite N.bit0_odd. Qed.

Lemma kron_last k (m : mat) i j :
  kron K 2 (eye K) m i j = ctrl_entry (k + 1) [] k m i j.
Proof.
  unfold kron, eye, ctrl_entry. cbn [forallb].
  assert (Hb : bitpos false (k + 1) k = 0) by (unfold bitpos; lia).
  assert (Hq : forall x, qbit false (k + 1) x k = N.testbit x 0) by (intros x; unfold qbit; now rewrite Hb).
  rewrite !Hq, !mod2_bit.
  assert (Hs : (qset false (k + 1) i k false =? qset false (k + 1) j k false) = (i / 2 =? j / 2)).
  { apply eq_true_iff_eq. rewrite !N.eqb_eq. split; intros E.
    - apply N.bits_inj. intros p. rewrite !half_bit.
      assert (E' : N.testbit (qset false (k + 1) i k false) (p + 1) = N.testbit (qset false (k + 1) j k false) (p + 1)) by now rewrite E.
      rewrite !qset_testbit, Hb in E'. destruct (N.eqb_spec (p + 1) 0); [lia|exact E'].
    - apply N.bits_inj. intros p. rewrite !qset_testbit, Hb. destruct (N.eqb_spec p 0); [reflexivity|].
      replace p with (N.pred p + 1) by lia. rewrite <- !half_bit. now rewrite E. }
  rewrite Hs. destruct (i / 2 =? j / 2); ring.
Qed.

Lemma kron_more k t (m : mat) i j : t < k ->
  kron K 2 (ctrl_entry k [] t m) (eye K) i j = ctrl_entry (k + 1) [] t m i j.
Proof.
  intros Ht. unfold kron, eye, ctrl_entry. cbn [forallb].
  assert (Hb : bitpos false (k + 1) t = bitpos false k t + 1) by (unfold bitpos; lia).
  assert (Hq : forall x, qbit false k (x / 2) t = qbit false (k + 1) x t).
  { intros x. unfold qbit. now rewrite half_bit, Hb. }
  rewrite !Hq.
  assert (Hs : (qset false (k + 1) i t false =? qset false (k + 1) j t false)
             = (qset false k (i / 2) t false =? qset false k (j / 2) t false) && (i mod 2 =? j mod 2)).
  { apply eq_true_iff_eq. rewrite andb_true_iff, !N.eqb_eq. split; intros E.
    - split.
      + apply N.bits_inj. intros p. rewrite !qset_testbit, !half_bit.
        assert (E' : N.testbit (qset false (k + 1) i t false) (p + 1) = N.testbit (qset false (k + 1) j t false) (p + 1)) by now rewrite E.
        rewrite !qset_testbit, Hb in E'.
        destruct (N.eqb_spec (p + 1) (bitpos false k t + 1)), (N.eqb_spec p (bitpos false k t)); auto; lia.
      + rewrite !mod2_bit. f_equal.
        assert (E' : N.testbit (qset false (k + 1) i t false) 0 = N.testbit (qset false (k + 1) j t false) 0) by now rewrite E.
        rewrite !qset_testbit, Hb in E'. destruct (N.eqb_spec 0 (bitpos false k t + 1)); [lia|exact E'].
    - destruct E as [E1 E2]. rewrite !mod2_bit in E2. apply N.b2n_inj in E2.
      apply N.bits_inj. intros p. destruct (N.eq_dec p 0) as [->|Hp].
      + rewrite !qset_testbit, Hb. destruct (N.eqb_spec 0 (bitpos false k t + 1)); [lia|exact E2].
      + assert (E' : N.testbit (qset false k (i / 2) t false) (N.pred p) = N.testbit (qset false k (j / 2) t false) (N.pred p)) by now rewrite E1.
        rewrite !qset_testbit, !half_bit in E'. rewrite !qset_testbit, Hb.
        replace (N.pred p + 1) with p in E' by lia.
        destruct (N.eqb_spec p (bitpos false k t + 1)), (N.eqb_spec (N.pred p) (bitpos false k t)); auto; lia. }
  rewrite Hs. destruct (qset false k (i / 2) t false =? qset false k (j / 2) t false), (i mod 2 =? j mod 2);
    cbn [andb]; ring.
Qed.

(** The accumulated product: identity before the target, the gate at its place afterwards. *)
Lemma kron_ext (A A' B : mat) k i j : i < 2 ^ (k + 1) -> j < 2 ^ (k + 1) ->
  (forall i j, i < 2 ^ k -> j < 2 ^ k -> A i j = A' i j) -> kron K 2 A B i j = kron K 2 A' B i j.
Proof.
  intros Hi Hj H. unfold kron. rewrite N.add_1_r, N.pow_succ_r' in *.
  rewrite H; [reflexivity| |]; apply N.div_lt_upper_bound; lia.
Qed.

Lemma kron_all_after (m : mat) oq t qs : (forall q, In q qs -> is_first q oq = false) ->
  forall k A, t < k -> (forall i j, i < 2 ^ k -> j < 2 ^ k -> A i j = ctrl_entry k [] t m i j) ->
  exists M, kron_all K 2 m oq qs (2 ^ k, A) = (2 ^ (k + N.of_nat (length qs)), M) /\
    forall i j, i < 2 ^ (k + N.of_nat (length qs)) -> j < 2 ^ (k + N.of_nat (length qs)) ->
      M i j = ctrl_entry (k + N.of_nat (length qs)) [] t m i j.
Proof.
  induction qs as [|q qs IH]; intros Hq k A Ht HA.
  - exists A. simpl. replace (k + 0) with k by lia. auto.
  - cbn [kron_all]. rewrite (Hq q) by now left.
    replace (2 ^ k * 2) with (2 ^ (k + 1)) by (rewrite N.add_1_r, N.pow_succ_r'; lia).
    destruct (IH (fun x Hx => Hq x (or_intror Hx)) (k + 1) (kron K 2 A (eye K))) as (M & E & HM); [lia| |].
    + intros i j Hi Hj. rewrite (kron_ext A (ctrl_entry k [] t m) (eye K) k) by auto. now apply kron_more.
    + exists M. replace (k + N.of_nat (length (q :: qs))) with (k + 1 + N.of_nat (length qs)) by (simpl length; lia).
      auto.
Qed.

Lemma kron_all_before (m : mat) p rest qs2 qs1 : (forall q, In q qs1 -> q <> p) ->
  (forall q, In q qs2 -> q <> p) ->
  forall k A, (forall i j, i < 2 ^ k -> j < 2 ^ k -> A i j = eye K i j) ->
  exists M, kron_all K 2 m (Some (p :: rest)) (qs1 ++ p :: qs2) (2 ^ k, A)
            = (2 ^ (k + N.of_nat (length (qs1 ++ p :: qs2))), M) /\
    forall i j, i < 2 ^ (k + N.of_nat (length (qs1 ++ p :: qs2))) -> j < 2 ^ (k + N.of_nat (length (qs1 ++ p :: qs2))) ->
      M i j = ctrl_entry (k + N.of_nat (length (qs1 ++ p :: qs2))) [] (k + N.of_nat (length qs1)) m i j.
Proof.
  intros H1 H2. induction qs1 as [|q qs1 IH]; intros k A HA.
  - cbn [app kron_all is_first]. rewrite Nat.eqb_refl.
    replace (2 ^ k * 2) with (2 ^ (k + 1)) by (rewrite N.add_1_r, N.pow_succ_r'; lia).
    destruct (kron_all_after m (Some (p :: rest)) k qs2) with (k := k + 1) (A := kron K 2 A m) as (M & E & HM).
    + intros q Hq. simpl. apply Nat.eqb_neq. intros ->. now apply (H2 q).
    + lia.
    + intros i j Hi Hj. rewrite (kron_ext A (eye K) m k) by auto. apply kron_last.
    + exists M. simpl length. replace (k + N.of_nat (S (length qs2))) with (k + 1 + N.of_nat (length qs2)) by lia.
      replace (k + N.of_nat 0) with k by lia. auto.
  - cbn [app kron_all is_first]. destruct (Nat.eqb_spec p q) as [->|Hne]; [exfalso; apply (H1 q); [now left|reflexivity]|].
    replace (2 ^ k * 2) with (2 ^ (k + 1)) by (rewrite N.add_1_r, N.pow_succ_r'; lia).
    destruct (IH (fun x Hx => H1 x (or_intror Hx)) (k + 1) (kron K 2 A (eye K))) as (M & E & HM).
    + intros i j Hi Hj. rewrite (kron_ext A (eye K) (eye K) k) by auto. apply kron_eye.
    + exists M. cbn [length app] in *.
      replace (k + N.of_nat (S (length (qs1 ++ p :: qs2)))) with (k + 1 + N.of_nat (length (qs1 ++ p :: qs2))) by lia.
      replace (k + N.of_nat (S (length qs1))) with (k + 1 + N.of_nat (length qs1)) by lia. auto.
Qed.

Lemma apply_single_ok qs p rest k m state : NoDup qs -> nth_error qs k = Some p ->
  exists S, apply_single K (2 ^ N.of_nat (length qs)) state 1 m (Some (p :: rest)) qs = Ok S /\
    forall v i, i < 2 ^ N.of_nat (length qs) ->
      mat_vec (N.of_nat (length qs)) S v i
      = op_apply false (N.of_nat (length qs)) m [N.of_nat k] [] (mat_vec (N.of_nat (length qs)) state v) i.
Proof.
  intros Hnd Hk. set (n := N.of_nat (length qs)).
  assert (Hkn : (k < length qs)%nat) by (apply nth_error_Some; congruence).
  assert (HM : exists M, (match qs with
     | [] => False
     | q :: qs' => kron_all K (2 ^ 1) m (Some (p :: rest)) qs' (2 ^ 1, if is_first q (Some (p :: rest)) then m else eye K) = (2 ^ n, M) end) /\
     forall i j, i < 2 ^ n -> j < 2 ^ n -> M i j = ctrl_entry n [] (N.of_nat k) m i j).
  { destruct qs as [|q qs']; [simpl in Hkn; lia|]. inversion Hnd as [|? ? Hq Hnd']; subst.
    change (2 ^ 1) with 2. destruct k as [|k].
    - cbn [nth_error] in Hk. inversion Hk; subst p. cbn [is_first]. rewrite Nat.eqb_refl.
      change (kron_all K 2 m (Some (q :: rest)) qs' (2, m)) with (kron_all K 2 m (Some (q :: rest)) qs' (2 ^ 1, m)).
      destruct (kron_all_after m (Some (q :: rest)) 0 qs') with (k := 1) (A := m) as (M & E & HM).
      + intros x Hx. simpl. apply Nat.eqb_neq. intros ->. contradiction.
      + lia.
      + intros i j Hi Hj. unfold ctrl_entry. cbn [forallb].
        assert (Hc : forall x, x < 2 -> x = 0 \/ x = 1) by lia.
        change (2 ^ 1) with 2 in *.
        destruct (Hc i Hi) as [->| ->], (Hc j Hj) as [->| ->]; reflexivity.
      + exists M. unfold n. cbn [length]. replace (N.of_nat (S (length qs'))) with (1 + N.of_nat (length qs')) by lia.
        auto.
    - cbn [nth_error] in Hk. apply nth_error_split in Hk. destruct Hk as (l1 & l2 & -> & Hl).
      assert (Hp : q <> p) by (intros ->; apply Hq; apply in_or_app; right; now left).
      cbn [is_first]. destruct (Nat.eqb_spec p q); [congruence|].
      change (kron_all K 2 m (Some (p :: rest)) (l1 ++ p :: l2) (2, eye K))
        with (kron_all K 2 m (Some (p :: rest)) (l1 ++ p :: l2) (2 ^ 1, eye K)).
      apply NoDup_remove in Hnd'. destruct Hnd' as [_ Hni].
      destruct (kron_all_before m p rest l2 l1) with (k := 1) (A := eye K) as (M & E & HM).
      + intros x Hx ->. apply Hni. apply in_or_app. now left.
      + intros x Hx ->. apply Hni. apply in_or_app. now right.
      + reflexivity.
      + exists M. unfold n. cbn [length].
        replace (N.of_nat (S (length (l1 ++ p :: l2)))) with (1 + N.of_nat (length (l1 ++ p :: l2))) by lia.
        replace (N.of_nat (S k)) with (1 + N.of_nat (length l1)) by lia. auto. }
  destruct HM as (M & E & HM). unfold apply_single. destruct qs as [|q qs']; [contradiction|].
  rewrite E. rewrite N.eqb_refl. eexists. split; [reflexivity|].
  intros v i Hi. rewrite mat_vec_matmul. rewrite (mat_vec_ext n M (ctrl_entry n [] (N.of_nat k) m) _ _ i Hi (fun j Hj => HM i j Hi Hj) (fun j _ => eq_refl)).
  apply ctrl_entry_op; [unfold n; lia|exact Hi].
Qed.

Lemma indices_placed qs l ts : NoDup qs -> Forall2 (fun q t => nth_error qs (N.to_nat t) = Some q) l ts ->
  indices qs l = Ok (map Z.of_N ts).
Proof.
  intros Hnd H. induction H as [|q t l ts Hq _ IH]; [reflexivity|].
  unfold indices in *. cbn [mapM map].
  assert (E : index_of q qs = Some (N.to_nat t)).
  { destruct (index_of_spec q qs (nth_error_In _ _ Hq)) as (i & E & Hi & Hn). rewrite E. f_equal.
    apply (proj1 (NoDup_nth_error qs) Hnd); [exact Hi|congruence]. }
  rewrite E. cbn [bind]. rewrite IH. cbn [bind]. f_equal. f_equal. lia.
Qed.

Lemma apply_controlled_ok qs control target cs t u state : NoDup qs ->
  Forall2 (fun q t => nth_error qs (N.to_nat t) = Some q) (control ++ [target]) (cs ++ [t]) ->
  NoDup (cs ++ [t]) -> length control = length cs ->
  exists S, apply_controlled K (2 ^ N.of_nat (length qs)) state 2 (Some u) control [target] qs = Ok S /\
    forall v i, i < 2 ^ N.of_nat (length qs) ->
      mat_vec (N.of_nat (length qs)) S v i
      = op_apply false (N.of_nat (length qs)) u [t] cs (mat_vec (N.of_nat (length qs)) state v) i.
Proof.
  intros Hnd HF Hnd2 Hlen. set (n := N.of_nat (length qs)).
  assert (Hlt : forall x, In x (t :: cs) -> x < n).
  { intros x Hx. assert (Hx' : In x (cs ++ [t])) by (rewrite in_app_iff; destruct Hx; [right; now left|now left]).
    clear -HF Hx'. revert Hx'. induction HF as [|q y l ts Hq _ IH]; intros Hx; [destruct Hx|].
    destruct Hx as [->|Hx]; [|auto]. assert (N.to_nat x < length qs)%nat by (apply nth_error_Some; congruence).
    unfold n. lia. }
  assert (Hnd3 : NoDup (t :: cs)).
  { apply (Permutation.Permutation_NoDup (l := cs ++ [t])); [|exact Hnd2].
    apply Permutation.Permutation_sym, Permutation.Permutation_cons_append. }
  destruct (bcu_correct K n cs t u Hlt Hnd3) as (M & E & HM).
  assert (HFs : Forall2 (fun q t => nth_error qs (N.to_nat t) = Some q) control cs /\
                Forall2 (fun q t => nth_error qs (N.to_nat t) = Some q) [target] [t]).
  { clear -HF Hlen. revert cs Hlen HF. induction control as [|q c IH]; intros [|y cs] Hlen HF; try discriminate.
    - simpl in HF. split; [constructor|exact HF].
    - inversion HF; subst. destruct (IH cs) as [A B]; auto. }
  destruct HFs as [HF1 HF2].
  unfold apply_controlled. rewrite (indices_placed qs control cs), (indices_placed qs [target] [t]) by auto.
  cbn [bind map]. replace (Z.of_nat (length qs)) with (Z.of_N n) by (unfold n; lia).
  rewrite E. cbn [bind]. eexists. split; [reflexivity|].
  intros v i Hi. rewrite mat_vec_matmul.
  rewrite (mat_vec_ext n M (ctrl_entry n cs t u) _ _ i Hi (fun j Hj => HM i j Hi Hj) (fun j _ => eq_refl)).
  apply ctrl_entry_op; [apply Hlt; now left|exact Hi].
Qed.

Lemma bu_runs c bits ops xs : NoDup (sc_qubits K c) ->
  Forall2 seen_as ops xs -> (forall o, In o ops -> wf_op c o /\ so_cond K o = []) ->
  forall state, exists M,
    bu_loop K (2 ^ num_qubits K c) (sc_qubits K c) xs state = Ok M /\
    forall v v0 w, (forall i, i < 2 ^ num_qubits K c -> v0 i = mat_vec (num_qubits K c) state v i) ->
      runs false c bits ops v0 w ->
      forall i, i < 2 ^ num_qubits K c -> mat_vec (num_qubits K c) M v i = w i.
Proof.
  intros Hnd HF. induction HF as [|o x ops xs Hox _ IH]; intros Hops state.
  - exists state. split; [reflexivity|]. intros v v0 w Hv Hr i Hi.
    inversion Hr as [v1 w1 Hw| |]; subst. now rewrite Hw, Hv.
  - destruct (Hops o (or_introl eq_refl)) as [Hw Hcond].
    assert (Hops' : forall o, In o ops -> wf_op c o /\ so_cond K o = []) by (intros y Hy; apply Hops; now right).
    destruct (placed_wf K c o Hw) as (ts & _ & Hp & Hl & Hnd' & Ha).
    set (n := num_qubits K c) in *.
    assert (Hm : is_measure (so_kind K o) = false).
    { unfold seen_as in Hox. destruct (so_kind K o); try reflexivity. destruct x; contradiction. }
    specialize (Hnd' Hm).
    assert (Hstep : exists S, match x with
                | USingle _ nq m oq => apply_single K (2 ^ n) state nq m oq (sc_qubits K c)
                | UControlled _ d m c0 t => apply_controlled K (2 ^ n) state d m c0 t (sc_qubits K c)
                end = Ok S /\
        forall v i, i < 2 ^ n -> mat_vec n S v i = gate_action false n (so_kind K o) ts (mat_vec n state v) i).
    { destruct Hp as (qs & Eq & HF2).
      assert (Hlen : length qs = length ts) by (clear -HF2; induction HF2; simpl; congruence).
      unfold seen_as in Hox. destruct (so_kind K o) as [| | | |nc dim m|nq m] eqn:Ek; try (destruct x; contradiction).
      - destruct x as [|d [m'|] control [|target [|]]]; try contradiction.
        destruct Hox as (-> & -> & Hc & Eq'). rewrite Eq in Eq'. inversion Eq'; subst qs.
        assert (Hs : (nc = 1%nat \/ nc = 2%nat) /\ dim = 2).
        { destruct Hw as (? & _ & _ & _ & _ & Hs). rewrite Ek in Hs. exact Hs. }
        destruct Hs as [Hnc ->].
        assert (Hts : exists cs t, ts = cs ++ [t] /\ length cs = nc /\ gate_action false n (KControlled K nc 2 m) ts = op_apply false n m [t] cs).
        { rewrite app_length in Hlen. simpl in Hlen. rewrite Hc in Hlen.
          destruct Hnc as [-> | ->].
          - destruct ts as [|a [|b [|]]]; simpl in Hlen; try lia. exists [a], b. auto.
          - destruct ts as [|a [|b [|d [|]]]]; simpl in Hlen; try lia. exists [a; b], d. auto. }
        destruct Hts as (cs & t & -> & Hcs & Eg). rewrite Eg.
        destruct (apply_controlled_ok (sc_qubits K c) control target cs t m state Hnd HF2 Hnd') as (S & ES & HS); [lia|].
        exists S. split; [exact ES|]. exact HS.
      - destruct nq as [|[|]]; try contradiction; destruct x as [nq' m' oq|]; try contradiction.
        destruct Hox as (-> & -> & ->). rewrite Eq.
        specialize (Ha 1%nat eq_refl). destruct ts as [|t [|]]; simpl in Ha; try lia.
        inversion HF2 as [|q ? qs' ? Hq HF3]; subst. inversion HF3; subst.
        destruct (apply_single_ok (sc_qubits K c) q [] (N.to_nat t) m state Hnd Hq) as (S & ES & HS).
        exists S. split; [exact ES|]. cbn [gate_action]. rewrite N2Nat.id in HS. exact HS. }
    destruct Hstep as (S & ES & HS).
    destruct (IH Hops' S) as (M & EM & HM). exists M. split.
    + cbn [bu_loop]. rewrite ES. exact EM.
    + intros v v0 w Hv Hr.
      inversion Hr as [| o1 ops1 a1 b1 Z1 R1 | o1 ops1 ts1 a1 v1 b1 Z1 P1 G1 R1]; subst.
      { destruct Z1 as (b & Hb & _). rewrite Hcond in Hb. destruct Hb. }
      assert (ts1 = ts) by (eapply placed_unique; eauto). subst ts1.
      apply (HM v v1 w); [|exact R1]. intros i Hi. rewrite G1 by auto. rewrite HS by auto.
      destruct (placed_good K c o ts Hw Hnd Hp Hm) as [Hg Hk].
      apply gate_action_ext; auto.
Qed.

Theorem build_unitary_runs c bits xs : wf_circ c -> Forall2 seen_as (sc_ops K c) xs ->
  (forall o, In o (sc_ops K c) -> so_cond K o = []) ->
  exists M, build_unitary K (sc_qubits K c) xs = Ok M /\
    forall v w, runs false c bits (sc_ops K c) v w ->
      forall i, i < 2 ^ num_qubits K c -> mat_vec (num_qubits K c) M v i = w i.
Proof.
  intros (Hnd & Hne & Hw) HF Hc.
  destruct (bu_runs c bits (sc_ops K c) xs Hnd HF) with (state := eye K) as (M & E & H).
  - intros o Ho. auto.
  - exists M. split; [exact E|]. intros v w Hr. apply (H v v w); [|exact Hr].
    intros i Hi. now rewrite mat_vec_eye.
Qed.
End U.

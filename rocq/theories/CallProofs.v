(** Proofs for C74: gates commute with reading out the amplitudes of some of the qubits. *)
From Coq Require Import List NArith Arith Bool Lia Ring.
From Verif Require Import Py CRing KernelModel KernelSpec KernelBits KernelProofs KernelProofs2 SimModel SimSpec SimProofs SimProofs2
  UnitarySpec CallSpec.
Import ListNotations.
Local Open Scope N_scope.

(** ** Indices *)
Lemma tbit_head le n q l st : NoDup (q :: l) -> (forall r, In r (q :: l) -> r < n) -> tbit le n (q :: l) st (bitpos le n q) = N.odd st.
Proof. exact (tbit_cons_head (mkParams le n [] []) q l st). Qed.
Lemma tbit_tail le n q l st r : NoDup (q :: l) -> (forall r, In r (q :: l) -> r < n) -> In r l ->
  tbit le n (q :: l) st (bitpos le n r) = tbit le n l (N.div2 st) (bitpos le n r).
Proof. exact (tbit_cons_tail (mkParams le n [] []) q l st r). Qed.
Lemma write_bit le n l i s j : NoDup l -> (forall q, In q l -> q < n) ->
  N.testbit (write le n i l s) j = if existsb (fun q => j =? bitpos le n q) l then tbit le n l s j else N.testbit i j.
Proof. exact (write_testbit (mkParams le n [] []) l i s j). Qed.
Lemma read_bit le n l i q : NoDup l -> (forall q, In q l -> q < n) -> In q l ->
  tbit le n l (read le n i l) (bitpos le n q) = N.testbit i (bitpos le n q).
Proof. exact (tbit_read (mkParams le n [] []) l i q). Qed.

Section Put.
Variable le : bool.
Variable n : N.
Variable ts : list N.
Hypothesis Hnd : NoDup ts.
Hypothesis Hlt : forall t, In t ts -> t < n.
Let k := N.of_nat (length ts).
Definition order : list N := if le then ts else rev ts.
Definition f (j : N) : N := nth (N.to_nat j) ts 0.
Definition put (i r : N) : N := write le n i order r.

Lemma order_in t : In t order <-> In t ts.
Proof. unfold order. destruct le; [tauto|]. symmetry. apply in_rev. Qed.
Lemma order_nodup : NoDup order.
Proof. unfold order. destruct le; [exact Hnd|]. now apply NoDup_rev. Qed.
Lemma order_length : length order = length ts.
Proof. unfold order. destruct le; [reflexivity|]. apply rev_length. Qed.
Lemma f_in j : j < k -> In (f j) ts.
Proof. intros H. apply nth_In. unfold k in H. lia. Qed.
Lemma f_lt j : j < k -> f j < n.
Proof. intros H. now apply Hlt, f_in. Qed.
Lemma f_inj i j : i < k -> j < k -> f i = f j -> i = j.
Proof.
  intros Hi Hj H. apply N2Nat.inj. unfold k in *. apply (proj1 (NoDup_nth ts 0) Hnd); unfold f in H; [lia|lia|exact H].
Qed.
Lemma k_le_n : k <= n.
Proof.
  assert (H : incl ts (map N.of_nat (seq 0 (N.to_nat n)))).
  { intros t Ht. apply in_map_iff. exists (N.to_nat t). split; [lia|]. apply in_seq. specialize (Hlt t Ht). lia. }
  apply (NoDup_incl_length Hnd) in H. rewrite map_length, seq_length in H. unfold k. lia.
Qed.

(** The [p]-th entry of [order] is the qubit whose bit is number [p]. *)
Lemma order_nth j : j < k -> nth (N.to_nat (bitpos le k j)) order 0 = f j.
Proof.
  intros H. unfold order, f, bitpos, k in *. destruct le; [reflexivity|].
  rewrite rev_nth by lia. f_equal. lia.
Qed.
Lemma tbit_nth l : forall s p, NoDup l -> (forall q, In q l -> q < n) -> (p < length l)%nat ->
  tbit le n l s (bitpos le n (nth p l 0)) = N.testbit s (N.of_nat p).
Proof.
  induction l as [|q l IH]; intros s p Hn Hl Hp; [cbn in Hp; lia|]. destruct p as [|p].
  - cbn [nth]. rewrite tbit_head by auto. symmetry. apply N.bit0_odd.
  - cbn [nth]. cbn in Hp. rewrite tbit_tail; [|auto|auto|apply nth_In; lia].
    rewrite IH; [|now inversion Hn|intros; apply Hl; now right|lia].
    rewrite N.div2_spec, N.shiftr_spec'. f_equal. lia.
Qed.
Lemma put_bit i r j : j < k -> qbit le n (put i r) (f j) = qbit le k r j.
Proof.
  intros H. unfold qbit, put.
  rewrite write_bit; [|apply order_nodup|intros q Hq; now apply Hlt, order_in].
  assert (E : existsb (fun q => bitpos le n (f j) =? bitpos le n q) order = true).
  { apply existsb_exists. exists (f j). split; [now apply order_in, f_in|apply N.eqb_refl]. }
  rewrite E, <- (order_nth j H), tbit_nth; [rewrite N2Nat.id; reflexivity|apply order_nodup|intros q Hq; now apply Hlt, order_in|].
  rewrite order_length. pose proof (bitpos_lt le k j H). unfold k in *. lia.
Qed.
Lemma put_other i r p : (forall t, In t ts -> p <> bitpos le n t) -> N.testbit (put i r) p = N.testbit i p.
Proof.
  intros H. unfold put. rewrite write_bit; [|apply order_nodup|intros q Hq; now apply Hlt, order_in].
  destruct (existsb _ order) eqn:E; [|reflexivity]. apply existsb_exists in E. destruct E as (t & Ht & E).
  apply N.eqb_eq in E. apply order_in in Ht. now apply H in Ht.
Qed.
Lemma put_lt i r : i < 2 ^ n -> put i r < 2 ^ n.
Proof. intros H. apply write_lt; [|exact H]. intros q Hq. now apply Hlt, order_in. Qed.

Lemma put_set i r j b : j < k -> qset le n (put i r) (f j) b = put i (qset le k r j b).
Proof.
  intros H. apply N.bits_inj. intros p. rewrite qset_testbit.
  destruct (in_dec N.eq_dec p (map (bitpos le n) ts)) as [Hi|Hi].
  - apply in_map_iff in Hi. destruct Hi as (t & <- & Ht). apply (In_nth _ _ 0) in Ht. destruct Ht as (m & Hm & <-).
    change (nth m ts 0) with (nth m ts 0). assert (Em : nth m ts 0 = f (N.of_nat m)) by (unfold f; now rewrite Nat2N.id).
    rewrite Em. assert (Hk : N.of_nat m < k) by (unfold k; lia).
    fold (qbit le n (put i (qset le k r j b)) (f (N.of_nat m))). fold (qbit le n (put i r) (f (N.of_nat m))). rewrite !put_bit by exact Hk.
    unfold qbit. rewrite qset_testbit. destruct (N.eqb_spec (bitpos le n (f (N.of_nat m))) (bitpos le n (f j))) as [E|E].
    + apply bitpos_inj in E; [|now apply f_lt|now apply f_lt]. apply f_inj in E; [|exact Hk|exact H]. rewrite E, N.eqb_refl. reflexivity.
    + destruct (N.eqb_spec (bitpos le k (N.of_nat m)) (bitpos le k j)) as [E'|E']; [|reflexivity].
      apply bitpos_inj in E'; [|exact Hk|exact H]. now rewrite E' in E.
  - assert (Ho : forall t, In t ts -> p <> bitpos le n t) by (intros t Ht ->; apply Hi; now apply in_map).
    rewrite !put_other by exact Ho. destruct (N.eqb_spec p (bitpos le n (f j))) as [E|E]; [|reflexivity].
    destruct (Ho (f j) (f_in j H) E).
Qed.

Lemma put_controls i r Cs : (forall j, In j Cs -> j < k) -> forallb (qbit le n (put i r)) (map f Cs) = forallb (qbit le k r) Cs.
Proof.
  induction Cs as [|j Cs IH]; intros H; [reflexivity|]. cbn. rewrite put_bit by (apply H; now left). rewrite IH; [reflexivity|].
  intros; apply H; now right.
Qed.
Lemma put_read i r T : (forall j, In j T -> j < k) -> read le n (put i r) (map f T) = read le k r T.
Proof.
  induction T as [|j T IH]; intros H; [reflexivity|]. cbn [map read]. rewrite put_bit by (apply H; now left). rewrite IH; [reflexivity|].
  intros; apply H; now right.
Qed.
Lemma put_write i T : forall r s, (forall j, In j T -> j < k) -> write le n (put i r) (map f T) s = put i (write le k r T s).
Proof.
  induction T as [|j T IH]; intros r s H; [reflexivity|]. cbn [map write]. rewrite IH by (intros; apply H; now right).
  apply put_set. apply H. now left.
Qed.

(** Reading out the bits at [ts] and putting them back. *)
Lemma tbit_ext l s j : tbit le n l s j = true -> exists q, In q l /\ j = bitpos le n q.
Proof.
  revert s. induction l as [|q l IH]; intros s; [discriminate|]. cbn [tbit]. rewrite orb_true_iff, andb_true_iff. intros [[_ H]|H].
  - apply N.eqb_eq in H. rewrite qubit_index_bitpos in H. exists q. split; [now left|exact H].
  - destruct (IH _ H) as (q' & Hq & E). exists q'. split; [now right|exact E].
Qed.
Lemma put_get i : put i (read le n i order) = i.
Proof.
  apply N.bits_inj. intros p. unfold put. rewrite write_bit; [|apply order_nodup|intros q Hq; now apply Hlt, order_in].
  destruct (existsb _ order) eqn:E; [|reflexivity]. apply existsb_exists in E. destruct E as (t & Ht & E). apply N.eqb_eq in E. subst p.
  apply read_bit; [apply order_nodup|intros q Hq; now apply Hlt, order_in|exact Ht].
Qed.
End Put.

(** ** Gates *)
Section Gates.
Variable K : cring.
Add Ring KringCall : (r_theory K).
Variable le : bool.
Variable n : N.
Variable ts : list N.
Hypothesis Hnd : NoDup ts.
Hypothesis Hlt : forall t, In t ts -> t < n.
Let k := N.of_nat (length ts).

Lemma op_apply_put G T Cs (v : N -> K) i r : (forall j, In j (T ++ Cs) -> j < k) ->
  op_apply le n G (map (f ts) T) (map (f ts) Cs) v (put le n ts i r) = op_apply le k G T Cs (fun s => v (put le n ts i s)) r.
Proof.
  intros H. unfold op_apply. rewrite (put_controls le n ts Hnd Hlt) by (intros j Hj; apply H, in_or_app; now right).
  unfold k. rewrite map_length. destruct (forallb _ Cs); [|reflexivity]. apply sumf_ext. intros s _.
  rewrite (put_read le n ts Hnd Hlt), (put_write le n ts Hnd Hlt); [reflexivity| |]; intros j Hj; apply H, in_or_app; now left.
Qed.

Lemma kop_map g (h : N -> N) l G T Cs : kop K g l = Some (G, T, Cs) -> kop K g (map h l) = Some (G, map h T, map h Cs).
Proof.
  intros H. destruct g as [mid bits| | | |nc dim m|nq m]; cbn in H;
    repeat match type of H with match ?x with _ => _ end = _ => destruct x; try discriminate end; inversion H; subst; reflexivity.
Qed.
Lemma good_map l : good_targets k l -> good_targets n (map (f ts) l).
Proof.
  intros [N1 L1]. split.
  - clear -N1 L1 Hnd k. induction l as [|j l IH]; [constructor|]. inversion N1; subst. cbn. constructor.
    + intros H. apply in_map_iff in H. destruct H as (j' & E & Hj). apply (f_inj ts Hnd) in E; [now subst| |]; apply L1; [now right|now left].
    + apply IH; [assumption|]. intros; apply L1; now right.
  - intros t Ht. apply in_map_iff in Ht. destruct Ht as (j & <- & Hj). apply (f_lt n ts Hlt). now apply L1.
Qed.
Lemma gate_action_put g l (v : N -> K) i r : good_kind K g l -> good_targets k l ->
  gate_action le n g (map (f ts) l) v (put le n ts i r) = gate_action le k g l (fun s => v (put le n ts i s)) r.
Proof.
  intros Hk Hg. destruct (good_kop K g l Hk) as (G & T & Cs & E).
  rewrite (kop_action K le n g _ G (map (f ts) T) (map (f ts) Cs)); [|now apply kop_map|now apply good_map].
  rewrite (kop_action K le k g l G T Cs) by assumption. apply op_apply_put. apply (kop_lt K k g l G T Cs E Hg).
Qed.
End Gates.

(** ** Linearity *)
Section Linear.
Variable K : cring.
Add Ring KringCall2 : (r_theory K).

Lemma op_apply_sum le n G T Cs (l : list N) (a : N -> K) (V : N -> N -> K) i :
  op_apply le n G T Cs (fun j => sumf l (fun s => rmul (a s) (V s j))) i = sumf l (fun s => rmul (a s) (op_apply le n G T Cs (V s) i)).
Proof.
  unfold op_apply. destruct (forallb _ Cs); [|reflexivity].
  etransitivity; [|etransitivity; [apply sumf_swap with (f := fun t s => rmul (a s) (rmul (G (read le n i T) t) (V s (write le n i T t))))|]].
  - apply sumf_ext. intros t _. rewrite <- sumf_scale. apply sumf_ext. intros s _. ring.
  - apply sumf_ext. intros s _. now rewrite sumf_scale.
Qed.
End Linear.

From Coq Require Import List NArith Bool Lia Permutation Sorted Ring.
From Verif Require Import CRing KernelModel KernelSpec KernelBits.
Import ListNotations.
Local Open Scope N_scope.

Lemma template_bit_le ps : forall b p, StronglySorted N.le ps -> In p ps ->
  N.testbit (template' ps b) p = false.
Proof.
  induction ps as [|q ps IH]; intros b p Hs Hp; [destruct Hp|].
  inversion Hs as [|? ? Hs' Hf]; subst. rewrite template_cons.
  destruct (in_dec N.eq_dec p ps) as [Hi|Hi]; [auto|].
  destruct Hp as [->|Hp]; [|contradiction].
  rewrite template_low.
  - rewrite spread_testbit. destruct (N.ltb_spec p p); [lia|]. now rewrite N.eqb_refl.
  - intros r Hr. rewrite Forall_forall in Hf. specialize (Hf r Hr).
    assert (r <> p) by (intros ->; contradiction). lia.
Qed.

Lemma nodup_app {A} (l m : list A) : NoDup l -> NoDup m -> (forall x, In x l -> In x m -> False) ->
  NoDup (l ++ m).
Proof.
  induction 1 as [|x l Hx Hl IH]; intros Hm H; simpl; [auto|]. constructor.
  - rewrite in_app_iff. intros [?|?]; [auto|]. apply (H x); simpl; auto.
  - apply IH; [auto|]. intros y Hy. apply H. now right.
Qed.

(** ** Positions *)
Section Pos.
Variable P : params.
Let le := p_le P. Let n := p_n P. Let ts := p_targets P. Let cs := p_controls P.
Hypothesis Hlt : forall q, In q (ts ++ cs) -> q < n.

Definition positions : list N := sort (map (qubit_index le n) (ts ++ cs)).

Lemma masks_positions : masks P = map mask positions.
Proof. reflexivity. Qed.

Lemma positions_In p : In p positions <-> exists q, In q (ts ++ cs) /\ p = bitpos le n q.
Proof.
  unfold positions. split.
  - intros H. apply (Permutation_in _ (sort_perm _)) in H. apply in_map_iff in H.
    destruct H as (q & <- & Hq). exists q. split; [auto|]. apply qubit_index_bitpos.
  - intros (q & Hq & ->). apply (Permutation_in _ (Permutation_sym (sort_perm _))).
    apply in_map_iff. exists q. split; [apply qubit_index_bitpos|auto].
Qed.

Lemma positions_lt p : In p positions -> p < n.
Proof. intros H. apply positions_In in H. destruct H as (q & Hq & ->). apply bitpos_lt. auto. Qed.

Lemma positions_length : length positions = (length ts + length cs)%nat.
Proof.
  unfold positions. rewrite (Permutation_length (sort_perm _)), map_length, app_length. reflexivity.
Qed.

Lemma iterations_lt b : b < iterations P ->
  N.of_nat (length positions) <= n /\ b < 2 ^ (n - N.of_nat (length positions)).
Proof.
  unfold iterations, nt, nc. fold ts cs n. rewrite positions_length, Nat2N.inj_add.
  rewrite N.shiftr_div_pow2, N.shiftl_1_l. intros H.
  destruct (N.le_gt_cases (N.of_nat (length ts) + N.of_nat (length cs)) n) as [Hle|Hgt].
  - split; [auto|]. rewrite N.pow_sub_r; [exact H|lia|exact Hle].
  - rewrite N.div_small in H by (apply N.pow_lt_mono_r; lia). lia.
Qed.

Definition tpos (j : N) : Prop := exists q, In q ts /\ j = bitpos le n q.
Definition cpos (j : N) : Prop := exists q, In q cs /\ j = bitpos le n q.

Lemma tbit_notin l : forall st j, (forall q, In q l -> j <> bitpos le n q) -> tbit le n l st j = false.
Proof.
  induction l as [|q l IH]; intros st j H; [reflexivity|]. simpl.
  rewrite qubit_index_bitpos. destruct (N.eqb_spec j (bitpos le n q)) as [E|E].
  - exfalso. apply (H q); [now left|auto].
  - rewrite andb_false_r. simpl. apply IH. intros r Hr. apply H. now right.
Qed.

Lemma state_index_testbit b st j :
  N.testbit (state_index P b st) j =
  N.testbit (template' positions b) j || existsb (fun c => j =? bitpos le n c) cs || tbit le n ts st j.
Proof.
  unfold state_index. rewrite masks_positions. fold le n ts cs.
  rewrite !N.lor_spec, control_mask_testbit, target_mask_testbit. f_equal. f_equal.
  generalize cs. intros l. induction l as [|c l IH]; simpl; [reflexivity|].
  now rewrite qubit_index_bitpos, IH.
Qed.

Lemma cpos_existsb j : existsb (fun c => j =? bitpos le n c) cs = true <-> cpos j.
Proof.
  rewrite existsb_exists. unfold cpos. split; intros (q & Hq & E); exists q; split; auto.
  - now apply N.eqb_eq.
  - now apply N.eqb_eq.
Qed.

Lemma state_index_lt b st : b < iterations P -> state_index P b st < 2 ^ n.
Proof.
  intros Hb. apply iterations_lt in Hb. destruct Hb as [Hk Hb].
  apply testbit_lt. intros j Hj. rewrite state_index_testbit.
  assert (Ht : template' positions b < 2 ^ n).
  { replace n with (n - N.of_nat (length positions) + N.of_nat (length positions)) by lia.
    apply template_lt; [exact Hb| |apply sort_sorted].
    intros p Hp. apply positions_lt in Hp. lia. }
  rewrite (lt_testbit n _ _ Ht Hj). simpl.
  destruct (existsb (fun c => j =? bitpos le n c) cs) eqn:E.
  - apply cpos_existsb in E. destruct E as (q & Hq & ->).
    assert (bitpos le n q < n) by (apply bitpos_lt, Hlt, in_or_app; auto). lia.
  - simpl. apply tbit_notin. intros q Hq ->.
    assert (bitpos le n q < n) by (apply bitpos_lt, Hlt, in_or_app; auto). lia.
Qed.

(** Different iterations touch different indices, even when qubits are repeated. *)
Lemma state_index_block b c s t : state_index P b s = state_index P c t -> b = c.
Proof.
  intros H. apply (template_inj positions). apply N.bits_inj. intros j.
  destruct (in_dec N.eq_dec j positions) as [Hj|Hj].
  - now rewrite !template_bit_le by (exact Hj || apply sort_sorted).
  - pose proof (f_equal (fun x => N.testbit x j) H) as E. cbn beta in E.
    rewrite !state_index_testbit in E.
    assert (Hc : existsb (fun c => j =? bitpos le n c) cs = false).
    { destruct (existsb _ cs) eqn:Ec; [|reflexivity]. apply cpos_existsb in Ec.
      destruct Ec as (q & Hq & ->). exfalso. apply Hj. apply positions_In. exists q.
      split; [apply in_or_app; auto|reflexivity]. }
    assert (Ht : forall st, tbit le n ts st j = false).
    { intros st. apply tbit_notin. intros q Hq ->. apply Hj. apply positions_In. exists q.
      split; [apply in_or_app; auto|reflexivity]. }
    rewrite Hc, !Ht, !orb_false_r in E. exact E.
Qed.

(** ** Distinct qubits *)
Hypothesis Hnd : NoDup (ts ++ cs).

Lemma ts_nodup : NoDup ts.
Proof.
  revert Hnd. generalize ts cs. clear. intros l m. revert l.
  induction m as [|c m IH]; intros l H; [now rewrite app_nil_r in H|].
  apply IH. now apply NoDup_remove_1 in H.
Qed.

Lemma ts_lt q : In q ts -> q < n. Proof. intros. apply Hlt, in_or_app; auto. Qed.
Lemma cs_lt q : In q cs -> q < n. Proof. intros. apply Hlt, in_or_app; auto. Qed.

Lemma ts_cs q : In q ts -> In q cs -> False.
Proof.
  intros H1 H2. apply in_split in H1. destruct H1 as (a & b & E).
  pose proof Hnd as H. rewrite E in H. rewrite <- app_assoc in H. simpl in H.
  apply NoDup_remove_2 in H. apply H. apply in_or_app. right. apply in_or_app. auto.
Qed.

Lemma positions_strict : StronglySorted N.lt positions.
Proof.
  apply sorted_strict; [apply sort_sorted|].
  apply (Permutation_NoDup (Permutation_sym (sort_perm _))).
  assert (Hinj : forall l, NoDup l -> (forall q, In q l -> q < n) -> NoDup (map (qubit_index le n) l)).
  { clear. intros l. induction 1 as [|q l Hq Hl IH]; intros H; simpl; constructor.
    - intros Hin. apply in_map_iff in Hin. destruct Hin as (r & E & Hr).
      rewrite !qubit_index_bitpos in E. apply bitpos_inj in E; [subst; auto| |]; apply H; simpl; auto.
    - apply IH. intros r Hr. apply H. now right. }
  apply Hinj; auto.
Qed.

Lemma positions_fit : N.of_nat (length positions) <= n.
Proof.
  assert (H : (length positions <= length (Nrange n))%nat).
  { apply NoDup_incl_length.
    - pose proof positions_strict as Hs. clear - Hs. induction Hs as [|p l H1 IH H2]; constructor; auto.
      intros Hp. rewrite Forall_forall in H2. specialize (H2 p Hp). lia.
    - intros p Hp. apply In_Nrange. now apply positions_lt. }
  rewrite Nrange_length in H. lia.
Qed.

Lemma iterations_pow : iterations P = 2 ^ (n - N.of_nat (length positions)).
Proof.
  pose proof positions_fit as Hf. unfold iterations, nt, nc. fold ts cs n. rewrite positions_length in *.
  rewrite Nat2N.inj_add in *. rewrite N.shiftr_div_pow2, N.shiftl_1_l, N.pow_sub_r by lia. reflexivity.
Qed.

(** [tbit] at the position of a target reads the corresponding bit. *)
Lemma tbit_cons_head q l st : NoDup (q :: l) -> (forall r, In r (q :: l) -> r < n) ->
  tbit le n (q :: l) st (bitpos le n q) = N.odd st.
Proof.
  intros Hn Hl. simpl. rewrite qubit_index_bitpos, N.eqb_refl, andb_true_r.
  rewrite tbit_notin; [now rewrite orb_false_r|].
  intros r Hr E. apply bitpos_inj in E; [|apply Hl; now left|apply Hl; now right].
  subst. inversion Hn; contradiction.
Qed.

Lemma tbit_cons_tail q l st r : NoDup (q :: l) -> (forall r, In r (q :: l) -> r < n) -> In r l ->
  tbit le n (q :: l) st (bitpos le n r) = tbit le n l (N.div2 st) (bitpos le n r).
Proof.
  intros Hn Hl Hr. simpl. rewrite qubit_index_bitpos.
  destruct (N.eqb_spec (bitpos le n r) (bitpos le n q)) as [E|E]; [|now rewrite andb_false_r].
  apply bitpos_inj in E; [|apply Hl; now right|apply Hl; now left]. subst.
  inversion Hn; contradiction.
Qed.

Lemma read_unique l : forall i s, NoDup l -> (forall q, In q l -> q < n) ->
  s < 2 ^ N.of_nat (length l) ->
  (forall q, In q l -> N.testbit i (bitpos le n q) = tbit le n l s (bitpos le n q)) ->
  read le n i l = s.
Proof.
  induction l as [|q l IH]; intros i s Hn Hl Hs H; cbn [read].
  - simpl in Hs. change (2 ^ 0) with 1 in Hs. lia.
  - unfold qbit. rewrite (H q) by now left. rewrite tbit_cons_head by auto.
    rewrite (IH i (N.div2 s)).
    + rewrite N.add_comm. symmetry. apply N.div2_odd.
    + now inversion Hn.
    + intros r Hr. apply Hl. now right.
    + simpl length in Hs. rewrite Nat2N.inj_succ, N.pow_succ_r' in Hs.
      pose proof (N.div2_odd s). destruct (N.odd s); cbn [N.b2n] in *; lia.
    + intros r Hr. rewrite H by now right. now apply tbit_cons_tail.
Qed.

Lemma read_lt l : forall i, read le n i l < 2 ^ N.of_nat (length l).
Proof.
  induction l as [|q l IH]; intros i; [simpl; lia|].
  cbn [read length]. rewrite Nat2N.inj_succ, N.pow_succ_r'. specialize (IH i).
  destruct (qbit le n i q); cbn [N.b2n]; lia.
Qed.

Lemma tbit_read l : forall i q, NoDup l -> (forall q, In q l -> q < n) -> In q l ->
  tbit le n l (read le n i l) (bitpos le n q) = N.testbit i (bitpos le n q).
Proof.
  induction l as [|r l IH]; intros i q Hn Hl Hq; [destruct Hq|].
  assert (Eo : N.odd (read le n i (r :: l)) = qbit le n i r).
  { cbn [read]. destruct (qbit le n i r); cbn [N.b2n].
    - rewrite N.odd_add, N.odd_mul. reflexivity.
    - rewrite N.odd_add, N.odd_mul. reflexivity. }
  assert (Ed : N.div2 (read le n i (r :: l)) = read le n i l).
  { cbn [read]. rewrite N.div2_div. symmetry. apply (N.div_unique _ _ _ (N.b2n (qbit le n i r))).
    - destruct (qbit le n i r); simpl; lia.
    - lia. }
  destruct Hq as [->|Hq].
  - rewrite tbit_cons_head by auto. exact Eo.
  - rewrite tbit_cons_tail by auto. rewrite Ed. apply IH; [now inversion Hn| |auto].
    intros x Hx. apply Hl. now right.
Qed.

Lemma write_testbit l : forall i s j, NoDup l -> (forall q, In q l -> q < n) ->
  N.testbit (write le n i l s) j =
  if existsb (fun q => j =? bitpos le n q) l then tbit le n l s j else N.testbit i j.
Proof.
  induction l as [|q l IH]; intros i s j Hn Hl; [reflexivity|].
  cbn [write existsb]. unfold qset.
  assert (Hq : N.testbit (if N.odd s then N.setbit (write le n i l (N.div2 s)) (bitpos le n q)
                          else N.clearbit (write le n i l (N.div2 s)) (bitpos le n q)) j
               = if j =? bitpos le n q then N.odd s else N.testbit (write le n i l (N.div2 s)) j).
  { destruct (N.odd s).
    - rewrite N.setbit_eqb, (N.eqb_sym j). now destruct (bitpos le n q =? j).
    - rewrite N.clearbit_eqb, (N.eqb_sym j). destruct (bitpos le n q =? j);
        now rewrite ?andb_false_r, ?andb_true_r. }
  rewrite Hq. destruct (N.eqb_spec j (bitpos le n q)) as [->|E].
  - rewrite tbit_cons_head by auto. reflexivity.
  - rewrite IH; [|now inversion Hn|intros x Hx; apply Hl; now right]. cbn [orb tbit].
    rewrite qubit_index_bitpos. destruct (N.eqb_spec j (bitpos le n q)); [contradiction|].
    rewrite andb_false_r. reflexivity.
Qed.

Lemma existsb_tpos j : existsb (fun q => j =? bitpos le n q) ts = true <-> tpos j.
Proof.
  rewrite existsb_exists. unfold tpos. split; intros (q & Hq & E); exists q; split; auto.
  - now apply N.eqb_eq.
  - now apply N.eqb_eq.
Qed.

Lemma state_index_target b s q : In q ts ->
  N.testbit (state_index P b s) (bitpos le n q) = tbit le n ts s (bitpos le n q).
Proof.
  intros Hq. rewrite state_index_testbit.
  rewrite template_bit_le; [|apply sort_sorted|].
  - destruct (existsb _ cs) eqn:E; [|reflexivity]. apply cpos_existsb in E.
    destruct E as (r & Hr & E). apply bitpos_inj in E; [|now apply ts_lt|now apply cs_lt].
    subst. exfalso. now apply (ts_cs r).
  - apply positions_In. exists q. split; [apply in_or_app; auto|reflexivity].
Qed.

Lemma state_index_control b s q : In q cs -> qbit le n (state_index P b s) q = true.
Proof.
  intros Hq. unfold qbit. rewrite state_index_testbit.
  assert (E : existsb (fun c => bitpos le n q =? bitpos le n c) cs = true).
  { apply cpos_existsb. exists q. auto. }
  rewrite E. now rewrite orb_true_r.
Qed.

Lemma state_index_controls b s : forallb (qbit le n (state_index P b s)) cs = true.
Proof. apply forallb_forall. intros q Hq. now apply state_index_control. Qed.

Lemma read_state_index b s : s < size P -> read le n (state_index P b s) ts = s.
Proof.
  intros Hs. apply read_unique; [apply ts_nodup|apply ts_lt| |].
  - unfold size, nt in Hs. rewrite N.shiftl_1_l in Hs. exact Hs.
  - intros q Hq. now apply state_index_target.
Qed.

Lemma state_index_inj b s t : s < size P -> t < size P ->
  state_index P b s = state_index P b t -> s = t.
Proof.
  intros Hs Ht E. rewrite <- (read_state_index b s Hs), <- (read_state_index b t Ht). now rewrite E.
Qed.

Lemma write_state_index b s t : write le n (state_index P b s) ts t = state_index P b t.
Proof.
  apply N.bits_inj. intros j. rewrite write_testbit; [|apply ts_nodup|apply ts_lt].
  destruct (existsb (fun q => j =? bitpos le n q) ts) eqn:E.
  - apply existsb_tpos in E. destruct E as (q & Hq & ->). symmetry. now apply state_index_target.
  - rewrite !state_index_testbit. f_equal.
    assert (Hj : forall q, In q ts -> j <> bitpos le n q).
    { intros q Hq ->. assert (Hc : tpos (bitpos le n q)) by (exists q; auto).
      apply existsb_tpos in Hc. congruence. }
    now rewrite !tbit_notin.
Qed.

Lemma state_index_cover i : i < 2 ^ n -> forallb (qbit le n i) cs = true ->
  exists b, b < iterations P /\ state_index P b (read le n i ts) = i.
Proof.
  intros Hi Hc.
  set (i0 := fold_right (fun p acc => N.clearbit acc p) i positions).
  assert (Hb0 : forall l x j, N.testbit (fold_right (fun p acc => N.clearbit acc p) x l) j
                  = N.testbit x j && negb (existsb (N.eqb j) l)).
  { induction l as [|p l IH]; intros x j; simpl; [now rewrite andb_true_r|].
    rewrite N.clearbit_eqb, IH, (N.eqb_sym p j). destruct (j =? p), (N.testbit x j), (existsb (N.eqb j) l); reflexivity. }
  assert (Hex : forall j, existsb (N.eqb j) positions = true <-> In j positions).
  { intros j. rewrite existsb_exists. split.
    - intros (x & Hx & E). apply N.eqb_eq in E. now subst.
    - intros H. exists j. split; [auto|apply N.eqb_refl]. }
  destruct (template_surj positions (n - N.of_nat (length positions)) i0) as (b & Hb & Ht).
  - apply positions_strict.
  - intros p Hp. apply positions_lt in Hp. pose proof positions_fit. lia.
  - pose proof positions_fit as Hf.
    replace (n - N.of_nat (length positions) + N.of_nat (length positions)) with n by lia.
    apply testbit_lt. intros j Hj. unfold i0. rewrite Hb0. now rewrite (lt_testbit n i j Hi Hj).
  - intros p Hp. unfold i0. rewrite Hb0. apply Hex in Hp. rewrite Hp. apply andb_false_r.
  - exists b. split; [now rewrite iterations_pow|].
    apply N.bits_inj. intros j. rewrite state_index_testbit, Ht. unfold i0. rewrite Hb0.
    destruct (existsb (fun q => j =? bitpos le n q) ts) eqn:Et.
    + apply existsb_tpos in Et. destruct Et as (q & Hq & ->).
      rewrite (tbit_read ts i q ts_nodup ts_lt Hq).
      assert (Hp : existsb (N.eqb (bitpos le n q)) positions = true).
      { apply Hex, positions_In. exists q. split; [apply in_or_app; auto|reflexivity]. }
      rewrite Hp. rewrite andb_false_r. simpl.
      destruct (existsb (fun c => bitpos le n q =? bitpos le n c) cs) eqn:Ec; [|reflexivity].
      apply cpos_existsb in Ec. destruct Ec as (r & Hr & E).
      apply bitpos_inj in E; [|now apply ts_lt|now apply cs_lt]. subst. exfalso. now apply (ts_cs r).
    + assert (Hj : forall q, In q ts -> j <> bitpos le n q).
      { intros q Hq ->. assert (Hx : tpos (bitpos le n q)) by (exists q; auto).
        apply existsb_tpos in Hx. congruence. }
      rewrite tbit_notin by auto. rewrite orb_false_r.
      destruct (existsb (fun c => j =? bitpos le n c) cs) eqn:Ec.
      * apply cpos_existsb in Ec. destruct Ec as (q & Hq & ->). rewrite orb_true_r. symmetry.
        rewrite forallb_forall in Hc. now apply Hc.
      * rewrite orb_false_r.
        assert (Hp : existsb (N.eqb j) positions = false).
        { destruct (existsb (N.eqb j) positions) eqn:E; [|reflexivity]. apply Hex in E.
          apply positions_In in E. destruct E as (q & Hq & E). apply in_app_or in Hq.
          destruct Hq as [Hq|Hq]; [exfalso; now apply (Hj q)|].
          assert (Hx : cpos j) by (exists q; auto). apply cpos_existsb in Hx. congruence. }
        rewrite Hp. apply andb_true_r.
Qed.

(** The indices with all controls set, block by block. *)
Lemma blocks_perm :
  Permutation (filter (fun i => forallb (qbit le n i) cs) (Nrange (2 ^ n)))
              (flat_map (fun b => map (state_index P b) (Nrange (size P))) (Nrange (iterations P))).
Proof.
  apply NoDup_Permutation.
  - apply NoDup_filter, NoDup_Nrange.
  - assert (Hg : forall bs, NoDup bs ->
       NoDup (flat_map (fun b => map (state_index P b) (Nrange (size P))) bs)).
    { induction 1 as [|b bs Hb Hbs IH]; simpl; [constructor|].
      assert (Hm : NoDup (map (state_index P b) (Nrange (size P)))).
      { assert (Hi : forall l, NoDup l -> (forall s, In s l -> s < size P) ->
                  NoDup (map (state_index P b) l)).
        { induction 1 as [|s l Hs Hl IHl]; intros Hlt'; simpl; constructor.
          - intros Hin. apply in_map_iff in Hin. destruct Hin as (t & E & Ht).
            apply state_index_inj in E; [subst; contradiction| |]; apply Hlt'; simpl; auto.
          - apply IHl. intros s' Hs'. apply Hlt'. now right. }
        apply Hi; [apply NoDup_Nrange|]. intros s. apply In_Nrange. }
      apply nodup_app; [exact Hm|exact IH|].
      intros x Hx H. apply in_map_iff in Hx. destruct Hx as (s & <- & _).
      apply in_flat_map in H. destruct H as (c & Hc & H).
      apply in_map_iff in H. destruct H as (t & E & _).
      apply state_index_block in E. subst. contradiction. }
    apply Hg, NoDup_Nrange.
  - intros i. rewrite filter_In, In_Nrange, in_flat_map. split.
    + intros [Hi Hc]. destruct (state_index_cover i Hi Hc) as (b & Hb & E).
      exists b. split; [now apply In_Nrange|]. apply in_map_iff. exists (read le n i ts).
      split; [auto|]. apply In_Nrange. unfold size, nt. rewrite N.shiftl_1_l. apply read_lt.
    + intros (b & Hb & H). apply In_Nrange in Hb. apply in_map_iff in H. destruct H as (s & <- & _).
      split; [now apply state_index_lt|apply state_index_controls].
Qed.
End Pos.

(** ** The loop *)
Section Loop.
Variable K : cring.
Add Ring Kring2 : (r_theory K).
Local Notation "a +' b" := (radd a b) (at level 50).

Lemma fold_left_add (l : list K) : forall a, fold_left radd l a = radd a (sumf l (fun x => x)).
Proof.
  induction l as [|x l IH]; intros a; cbn [fold_left sumf fold_right]; [ring|].
  rewrite IH. unfold sumf. ring.
Qed.

Lemma multiply_spec (sz : N) (g : N -> N -> entry K) i (amp : N -> K) :
  multiply (instructions sz g i) amp = sumf (Nrange sz) (fun s => rmul (entry_val (g i s)) (amp s)).
Proof.
  unfold multiply, instructions, nonzero.
  set (F := fun se : N * entry K => match snd se with
                                   | E1 => [amp (fst se)]
                                   | E0 => []
                                   | EV a => [rmul a (amp (fst se))]
                                   end).
  assert (H : forall l, sumf (flat_map F (map (fun j => (j, g i j)) (filter (fun j => negb (is_E0 (g i j))) l)))
                     (fun x => x) = sumf l (fun s => rmul (entry_val (g i s)) (amp s))).
  { induction l as [|j l IH]; [reflexivity|].
    cbn [filter sumf fold_right].
    destruct (g i j) as [| |a] eqn:E; cbn [is_E0 negb map flat_map].
    - rewrite IH. unfold sumf. cbn [entry_val]. ring.
    - rewrite sumf_app, IH. unfold F at 1. cbn [snd fst]. rewrite E. unfold sumf. cbn [fold_right entry_val]. ring.
    - rewrite sumf_app, IH. unfold F at 1. cbn [snd fst]. rewrite E. unfold sumf. cbn [fold_right entry_val]. ring. }
  rewrite <- H. destruct (flat_map F _) as [|t l]; [reflexivity|]. rewrite fold_left_add. reflexivity.
Qed.

Lemma row_identity_spec sz (g : N -> N -> entry K) i (amp : N -> K) : i < sz ->
  row_is_identity sz g i = true ->
  sumf (Nrange sz) (fun s => rmul (entry_val (g i s)) (amp s)) = amp i.
Proof.
  intros Hi. unfold row_is_identity. rewrite andb_true_iff. intros [H1 H2].
  rewrite (sumf_single K _ _ i).
  - destruct (g i i); try discriminate. simpl. ring.
  - apply NoDup_Nrange.
  - now apply In_Nrange.
  - intros j Hj Hne. destruct (g i j) as [| |a] eqn:E; cbn [entry_val]; [ring| |];
    (exfalso; assert (Hin : In j (nonzero sz g i)) by
        (unfold nonzero; apply filter_In; split; [auto|now rewrite E]);
     destruct (nonzero sz g i) as [|k [|? ?]]; try discriminate;
     apply N.eqb_eq in H1; destruct Hin as [<-|[]]; auto).
Qed.

Lemma row_zero_spec sz (g : N -> N -> entry K) i (amp : N -> K) :
  row_is_zero sz g i = true ->
  sumf (Nrange sz) (fun s => rmul (entry_val (g i s)) (amp s)) = r0.
Proof.
  unfold row_is_zero. intros H. apply sumf_zero. intros j Hj.
  destruct (g i j) as [| |a] eqn:E; cbn [entry_val]; [ring| |];
    (exfalso; assert (Hin : In j (nonzero sz g i)) by
        (unfold nonzero; apply filter_In; split; [auto|now rewrite E]);
     destruct (nonzero sz g i); [destruct Hin|discriminate]).
Qed.

Lemma upd_fold (f : N -> N) (r : N -> K) outs : forall v j,
  (forall a b, In a outs -> In b outs -> f a = f b -> a = b) ->
  fold_left (fun v' i => upd v' (f i) (r i)) outs v j =
  match find (fun i => f i =? j) outs with Some i => r i | None => v j end.
Proof.
  induction outs as [|a outs IH]; intros v j Hinj; [reflexivity|].
  cbn [fold_left find]. rewrite IH by (intros; apply Hinj; simpl; auto). unfold upd.
  destruct (N.eqb_spec (f a) j) as [E|E].
  - destruct (find (fun i => f i =? j) outs) as [b|] eqn:Ef.
    + apply find_some in Ef. destruct Ef as [Hb Eb]. apply N.eqb_eq in Eb.
      assert (a = b) by (apply Hinj; simpl; auto; congruence). now subst.
    + destruct (N.eqb_spec j (f a)); [reflexivity|congruence].
  - destruct (find _ outs); [reflexivity|]. destruct (N.eqb_spec j (f a)); [congruence|reflexivity].
Qed.

Section Fixed.
Variable P : params.
Hypothesis Hlt : forall q, In q (p_targets P ++ p_controls P) -> q < p_n P.
Hypothesis Hnd : NoDup (p_targets P ++ p_controls P).
Variable g : N -> N -> entry K.
Variable scale : option K.
Let sz := size P.
Let outs := output_states sz g (match scale with None => true | Some _ => false end) false.

(** The new amplitude of sub state [s] of block [b]. *)
Definition newamp (v : N -> K) (b s : N) : K :=
  let r := sumf (Nrange sz) (fun t => rmul (entry_val (g s t)) (v (state_index P b t))) in
  match scale with Some f => rmul f r | None => r end.

Lemma outs_lt s : In s outs -> s < sz.
Proof. intros H. apply filter_In in H. now apply In_Nrange. Qed.

Lemma body_block v b s : s < sz ->
  body P g outs scale v b (state_index P b s) = newamp v b s.
Proof.
  intros Hs. unfold body. rewrite upd_fold.
  2:{ intros a c Ha Hc. apply (state_index_inj P Hlt Hnd); now apply outs_lt. }
  destruct (find (fun i => state_index P b i =? state_index P b s) outs) as [i|] eqn:E.
  - apply find_some in E. destruct E as [Hi E]. apply N.eqb_eq in E.
    apply (state_index_inj P Hlt Hnd) in E; [|now apply outs_lt|exact Hs]. subst i.
    unfold newamp. now rewrite multiply_spec.
  - assert (Hn : ~ In s outs).
    { intros H. apply (find_none _ _ E) in H. now rewrite N.eqb_refl in H. }
    unfold newamp. destruct scale as [f|] eqn:Es.
    + exfalso. apply Hn. unfold outs. apply filter_In. split; [now apply In_Nrange|reflexivity].
    + assert (Hid : row_is_identity sz g s = true).
      { destruct (row_is_identity sz g s) eqn:Ei; [reflexivity|]. exfalso. apply Hn.
        unfold outs. apply filter_In. split; [now apply In_Nrange|]. now rewrite Ei. }
      symmetry. exact (row_identity_spec sz g s (fun t => v (state_index P b t)) Hs Hid).
Qed.

Lemma body_other v b j : (forall s, s < sz -> j <> state_index P b s) ->
  body P g outs scale v b j = v j.
Proof.
  intros H. unfold body. rewrite upd_fold.
  2:{ intros a c Ha Hc. apply (state_index_inj P Hlt Hnd); now apply outs_lt. }
  destruct (find _ outs) as [i|] eqn:E; [|reflexivity]. exfalso.
  apply find_some in E. destruct E as [Hi E]. apply N.eqb_eq in E.
  apply (H i); [now apply outs_lt|congruence].
Qed.

Lemma newamp_ext v w b s : (forall t, t < sz -> v (state_index P b t) = w (state_index P b t)) ->
  newamp v b s = newamp w b s.
Proof.
  intros H. unfold newamp. rewrite (sumf_ext K _ _ (fun t => rmul (entry_val (g s t)) (w (state_index P b t)))).
  - reflexivity.
  - intros t Ht. apply In_Nrange in Ht. now rewrite H.
Qed.

Lemma loop_block bs : forall v b s, NoDup bs -> s < sz ->
  fold_left (body P g outs scale) bs v (state_index P b s) =
  if existsb (N.eqb b) bs then newamp v b s else v (state_index P b s).
Proof.
  induction bs as [|c bs IH]; intros v b s Hn Hs; [reflexivity|].
  inversion Hn as [|? ? H1 H2]; subst. cbn [fold_left existsb]. rewrite IH by auto.
  assert (Hsame : forall b', b' <> c -> forall t,
            body P g outs scale v c (state_index P b' t) = v (state_index P b' t)).
  { intros b' Hb t. apply body_other. intros s' Hs' E. apply state_index_block in E; auto. }
  destruct (N.eqb_spec b c) as [->|Hb].
  - assert (E : existsb (N.eqb c) bs = false).
    { destruct (existsb _ bs) eqn:E; [|reflexivity]. apply existsb_exists in E.
      destruct E as (x & Hx & E). apply N.eqb_eq in E. subst. contradiction. }
    rewrite E. simpl. now apply body_block.
  - simpl. destruct (existsb (N.eqb b) bs); [|now apply Hsame].
    apply newamp_ext. intros t Ht. now apply Hsame.
Qed.

Lemma loop_other bs : forall v j, (forall b s, In b bs -> s < sz -> j <> state_index P b s) ->
  fold_left (body P g outs scale) bs v j = v j.
Proof.
  induction bs as [|c bs IH]; intros v j H; [reflexivity|]. cbn [fold_left].
  rewrite IH by (intros; apply H; simpl; auto). apply body_other. intros s Hs. apply H; simpl; auto.
Qed.
End Fixed.

Definition scaled (scale : option K) (g : N -> N -> entry K) : N -> N -> K :=
  fun i j => match scale with Some f => rmul f (entry_val (g i j)) | None => entry_val (g i j) end.

Theorem kernel_correct (P : params) (g : N -> N -> entry K) (scale : option K) (v : N -> K) :
  p_n P <= 30 ->
  (forall q, In q (p_targets P ++ p_controls P) -> q < p_n P) ->
  NoDup (p_targets P ++ p_controls P) ->
  exists v', kernel P g scale v = Some v' /\
    (forall i, i < 2 ^ p_n P ->
       v' i = op_apply (p_le P) (p_n P) (scaled scale g) (p_targets P) (p_controls P) v i) /\
    (forall i, 2 ^ p_n P <= i -> v' i = v i).
Proof.
  intros Hn Hlt Hnd. unfold kernel. apply N.leb_le in Hn. rewrite Hn.
  eexists. split; [reflexivity|]. split.
  - intros i Hi. unfold op_apply.
    destruct (forallb (qbit (p_le P) (p_n P) i) (p_controls P)) eqn:Hc.
    + destruct (state_index_cover P Hlt Hnd i Hi Hc) as (b & Hb & E).
      set (s := read (p_le P) (p_n P) i (p_targets P)) in *.
      assert (Hs : s < size P).
      { unfold size, nt. rewrite N.shiftl_1_l. apply read_lt. }
      rewrite <- E at 1. rewrite (loop_block P Hlt Hnd g scale); [|apply NoDup_Nrange|exact Hs].
      assert (Hb' : existsb (N.eqb b) (Nrange (iterations P)) = true).
      { apply existsb_exists. exists b. split; [now apply In_Nrange|apply N.eqb_refl]. }
      rewrite Hb'. unfold newamp, scaled, size, nt. rewrite N.shiftl_1_l.
      assert (Hw : forall t, write (p_le P) (p_n P) i (p_targets P) t = state_index P b t).
      { intros t. rewrite <- E. apply (write_state_index P Hlt Hnd). }
      destruct scale as [f|].
      * rewrite <- sumf_scale. apply sumf_ext. intros t _. rewrite Hw. ring.
      * apply sumf_ext. intros t _. now rewrite Hw.
    + apply (loop_other P Hlt Hnd). intros b s _ _ ->.
      rewrite (state_index_controls P b s) in Hc. discriminate.
  - intros i Hi. apply (loop_other P Hlt Hnd). intros b s Hb _ ->. apply In_Nrange in Hb.
    pose proof (state_index_lt P Hlt b s Hb). lia.
Qed.

(** The collected norm. *)
Theorem kernel_norm_correct (P : params) (g : N -> N -> entry K) (v : N -> K) :
  p_n P <= 30 ->
  (forall q, In q (p_targets P ++ p_controls P) -> q < p_n P) ->
  NoDup (p_targets P ++ p_controls P) ->
  kernel_norm P g v = Some
    (sumf (filter (fun i => forallb (qbit (p_le P) (p_n P) i) (p_controls P)) (Nrange (2 ^ p_n P)))
          (fun i => rnorm (op_apply (p_le P) (p_n P) (fun i j => entry_val (g i j))
                                    (p_targets P) (p_controls P) v i))).
Proof.
  intros Hn Hlt Hnd. unfold kernel_norm. apply N.leb_le in Hn. rewrite Hn. f_equal.
  rewrite (sumf_perm K _ _ _ (blocks_perm P Hlt Hnd)), sumf_flat_map.
  set (outs := output_states (size P) g false true).
  assert (Hin : forall (F : N -> K) l acc,
     fold_left (fun acc' i => radd acc' (F i)) l acc = radd acc (sumf l F)).
  { intros F. induction l as [|i l IH]; intros acc; cbn [fold_left sumf fold_right]; [ring|].
    rewrite IH. unfold sumf. ring. }
  assert (Hb : forall b, sumf outs (fun i => rnorm (multiply (instructions (size P) g i)
                                              (fun st => v (state_index P b st))))
     = sumf (map (state_index P b) (Nrange (size P)))
          (fun i => rnorm (op_apply (p_le P) (p_n P) (fun i j => entry_val (g i j))
                                    (p_targets P) (p_controls P) v i))).
  { intros b. rewrite sumf_map. unfold outs, output_states. rewrite sumf_if. apply sumf_ext.
    intros s Hs. apply In_Nrange in Hs. cbn [andb negb].
    unfold op_apply. rewrite (state_index_controls P b s), (read_state_index P Hlt Hnd b s Hs).
    rewrite multiply_spec.
    assert (E : sumf (Nrange (size P)) (fun s0 => rmul (entry_val (g s s0)) (v (state_index P b s0)))
              = sumf (Nrange (2 ^ N.of_nat (length (p_targets P))))
                 (fun s0 => rmul (entry_val (g s s0))
                      (v (write (p_le P) (p_n P) (state_index P b s) (p_targets P) s0)))).
    { unfold size, nt. rewrite N.shiftl_1_l. apply sumf_ext. intros t _.
      now rewrite (write_state_index P Hlt Hnd). }
    rewrite <- E. destruct (row_is_zero (size P) g s) eqn:Ez; [|reflexivity].
    rewrite (row_zero_spec (size P) g s (fun t => v (state_index P b t)) Ez).
    unfold rnorm. cbn [negb]. ring. }
  assert (Hout : forall bs acc,
     fold_left (fun acc b =>
               fold_left (fun acc' i => radd acc' (rnorm (multiply (instructions (size P) g i)
                    (fun st => v (state_index P b st))))) outs acc) bs acc
     = radd acc (sumf bs (fun b => sumf (map (state_index P b) (Nrange (size P)))
          (fun i => rnorm (op_apply (p_le P) (p_n P) (fun i j => entry_val (g i j))
                                    (p_targets P) (p_controls P) v i))))).
  { induction bs as [|b bs IH]; intros acc; cbn [fold_left sumf fold_right]; [ring|].
    rewrite IH, Hin, Hb. unfold sumf. ring. }
  rewrite Hout. ring.
Qed.
End Loop.

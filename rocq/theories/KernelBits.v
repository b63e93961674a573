(** Bit-level facts about the masks and templates of the generated loops. *)
From Coq Require Import List NArith Bool Lia Permutation Sorted.
From Verif Require Import CRing KernelModel KernelSpec.
Import ListNotations.
Local Open Scope N_scope.

Lemma testbit_lt n i : (forall p, n <= p -> N.testbit i p = false) -> i < 2 ^ n.
Proof.
  intros H. destruct (N.eq_dec i 0) as [->|Hi]; [apply N.neq_0_lt_0; apply N.pow_nonzero; lia|].
  apply N.log2_lt_pow2; [lia|]. destruct (N.lt_ge_cases (N.log2 i) n) as [|Hge]; [auto|].
  apply H in Hge. rewrite N.bit_log2 in Hge by auto. discriminate.
Qed.

Lemma lt_testbit n i p : i < 2 ^ n -> n <= p -> N.testbit i p = false.
Proof.
  intros H Hp. destruct (N.eq_dec i 0) as [->|Hi]; [apply N.bits_0|].
  apply N.bits_above_log2. apply N.log2_lt_pow2 in H; lia.
Qed.

Lemma mask_ones p : mask p = N.ones p.
Proof. unfold mask, N.ones. now rewrite N.sub_1_r. Qed.

Lemma mask_testbit p j : N.testbit (mask p) j = (j <? p).
Proof.
  rewrite mask_ones. destruct (N.ltb_spec j p).
  - now apply N.ones_spec_low.
  - now apply N.ones_spec_high.
Qed.

Lemma spread_testbit p b j :
  N.testbit (spread b (mask p)) j =
  if j <? p then N.testbit b j else if j =? p then false else N.testbit b (j - 1).
Proof.
  unfold spread. rewrite N.lor_spec, N.land_spec, mask_testbit.
  destruct (N.eq_dec j 0) as [->|Hj].
  - rewrite N.shiftl_spec_low by lia. rewrite orb_false_l.
    destruct (N.ltb_spec 0 p); [now rewrite andb_true_r|].
    rewrite andb_false_r. destruct (N.eqb_spec 0 p); [reflexivity|lia].
  - rewrite N.shiftl_spec_high' by lia. rewrite N.ldiff_spec, mask_testbit.
    destruct (N.ltb_spec j p), (N.eqb_spec j p), (N.ltb_spec (j - 1) p); try lia;
      simpl; rewrite ?andb_true_r, ?andb_false_r, ?orb_false_r; reflexivity.
Qed.

Lemma spread_inj p b c : spread b (mask p) = spread c (mask p) -> b = c.
Proof.
  intros H. apply N.bits_inj. intros j.
  destruct (N.ltb_spec j p) as [Hj|Hj].
  - pose proof (f_equal (fun x => N.testbit x j) H) as E. cbn beta in E.
    rewrite !spread_testbit in E. destruct (N.ltb_spec j p); [exact E|lia].
  - pose proof (f_equal (fun x => N.testbit x (j + 1)) H) as E. cbn beta in E.
    rewrite !spread_testbit in E. destruct (N.ltb_spec (j + 1) p); [lia|].
    destruct (N.eqb_spec (j + 1) p); [lia|]. now replace (j + 1 - 1) with j in E by lia.
Qed.

Lemma spread_lt p b m : b < 2 ^ m -> p <= m -> spread b (mask p) < 2 ^ (m + 1).
Proof.
  intros Hb Hp. apply testbit_lt. intros j Hj. rewrite spread_testbit.
  destruct (N.ltb_spec j p); [lia|]. destruct (N.eqb_spec j p); [reflexivity|].
  apply (lt_testbit m); [auto|lia].
Qed.

(** The inverse of [spread]: drop bit [p]. *)
Definition unspread (p i : N) : N := N.lor (N.shiftl (N.shiftr i (p + 1)) p) (N.land i (mask p)).

Lemma unspread_testbit p i j :
  N.testbit (unspread p i) j = if j <? p then N.testbit i j else N.testbit i (j + 1).
Proof.
  unfold unspread. rewrite N.lor_spec, N.land_spec, mask_testbit.
  destruct (N.ltb_spec j p).
  - rewrite N.shiftl_spec_low by auto. now rewrite andb_true_r.
  - rewrite N.shiftl_spec_high' by auto. rewrite N.shiftr_spec', andb_false_r, orb_false_r.
    f_equal. lia.
Qed.

Lemma spread_unspread p i : N.testbit i p = false -> spread (unspread p i) (mask p) = i.
Proof.
  intros H. apply N.bits_inj. intros j. rewrite spread_testbit, !unspread_testbit.
  destruct (N.ltb_spec j p); [reflexivity|]. destruct (N.eqb_spec j p) as [->|]; [auto|].
  destruct (N.ltb_spec (j - 1) p); [lia|]. f_equal. lia.
Qed.

Lemma unspread_lt p i m : i < 2 ^ (m + 1) -> p <= m -> unspread p i < 2 ^ m.
Proof.
  intros Hi Hp. apply testbit_lt. intros j Hj. rewrite unspread_testbit.
  destruct (N.ltb_spec j p); [lia|]. apply (lt_testbit (m + 1)); [auto|lia].
Qed.

(** ** Templates over a non-decreasing list of positions *)
Definition template' (ps : list N) (b : N) : N := template (map mask ps) b.

Lemma template_cons p ps b : template' (p :: ps) b = template' ps (spread b (mask p)).
Proof. reflexivity. Qed.


Lemma template_inj ps : forall b c, template' ps b = template' ps c -> b = c.
Proof.
  induction ps as [|p ps IH]; intros b c H; [exact H|].
  rewrite !template_cons in H. apply IH in H. now apply spread_inj in H.
Qed.

Lemma template_low ps : forall b j, (forall p, In p ps -> j < p) ->
  N.testbit (template' ps b) j = N.testbit b j.
Proof.
  induction ps as [|p ps IH]; intros b j H; [reflexivity|].
  rewrite template_cons, IH by (intros q Hq; apply H; now right).
  rewrite spread_testbit. destruct (N.ltb_spec j p); [reflexivity|].
  specialize (H p (or_introl eq_refl)). lia.
Qed.

Lemma template_lt ps : forall m b, b < 2 ^ m ->
  (forall p, In p ps -> p < m + N.of_nat (length ps)) ->
  StronglySorted N.le ps -> template' ps b < 2 ^ (m + N.of_nat (length ps)).
Proof.
  (* a position too large for the current width leaves the number alone up to the next ones *)
  induction ps as [|p ps IH]; intros m b Hb Hp Hs.
  - simpl. now rewrite N.add_0_r.
  - rewrite template_cons. replace (m + N.of_nat (length (p :: ps))) with (m + 1 + N.of_nat (length ps))
      by (simpl length; lia).
    inversion Hs as [|? ? Hs' Hf]; subst.
    apply IH; [| |exact Hs'].
    + destruct (N.le_gt_cases p m) as [H|H]; [now apply spread_lt|].
      apply testbit_lt. intros j Hj. rewrite spread_testbit.
      destruct (N.ltb_spec j p); [apply (lt_testbit m); [auto|lia]|].
      destruct (N.eqb_spec j p); [reflexivity|]. apply (lt_testbit m); [auto|lia].
    + intros q Hq. specialize (Hp q (or_intror Hq)). simpl length in Hp. lia.
Qed.

Lemma template_bit ps : forall b p, StronglySorted N.lt ps -> In p ps ->
  N.testbit (template' ps b) p = false.
Proof.
  induction ps as [|q ps IH]; intros b p Hs Hp; [destruct Hp|].
  inversion Hs as [|? ? Hs' Hf]; subst. rewrite template_cons.
  destruct Hp as [->|Hp]; [|auto].
  rewrite template_low by (intros r Hr; rewrite Forall_forall in Hf; auto).
  rewrite spread_testbit. destruct (N.ltb_spec p p); [lia|]. now rewrite N.eqb_refl.
Qed.

Lemma template_surj ps : forall m i, StronglySorted N.lt ps ->
  (forall p, In p ps -> p < m + N.of_nat (length ps)) ->
  i < 2 ^ (m + N.of_nat (length ps)) -> (forall p, In p ps -> N.testbit i p = false) ->
  exists b, b < 2 ^ m /\ template' ps b = i.
Proof.
  induction ps as [|p ps IH]; intros m i Hs Hp Hi Hz.
  - exists i. simpl in Hi. rewrite N.add_0_r in Hi. auto.
  - inversion Hs as [|? ? Hs' Hf]; subst. rewrite Forall_forall in Hf.
    destruct (IH (m + 1) i) as (b' & Hb' & Ht).
    + exact Hs'.
    + intros q Hq. specialize (Hp q (or_intror Hq)). simpl length in Hp. lia.
    + simpl length in Hi. now replace (m + 1 + N.of_nat (length ps)) with (m + N.of_nat (S (length ps))) by lia.
    + intros q Hq. apply Hz. now right.
    + assert (Hpb : N.testbit b' p = false).
      { rewrite <- (template_low ps b' p) by auto. rewrite Ht. apply Hz. now left. }
      assert (Hpm : p <= m).
      { (* p and the positions above it are distinct numbers below m + length *)
        assert (Hlen : forall l lo, StronglySorted N.lt l -> (forall x, In x l -> lo < x) ->
                  forall hi, (forall x, In x l -> x < hi) -> N.of_nat (length l) + lo < hi \/ l = []).
        { induction l as [|x l IHl]; intros lo Hsl Hlo hi Hhi; [now right|]. left.
          inversion Hsl as [|? ? Hsl' Hfl]; subst. rewrite Forall_forall in Hfl.
          destruct (IHl x Hsl' Hfl hi) as [H| ->].
          - intros y Hy. apply Hhi. now right.
          - specialize (Hlo x (or_introl eq_refl)). simpl length. lia.
          - specialize (Hlo x (or_introl eq_refl)). specialize (Hhi x (or_introl eq_refl)).
            simpl length. lia. }
        destruct (Hlen ps p Hs' Hf (m + N.of_nat (length (p :: ps)))) as [H| ->].
        - intros x Hx. apply Hp. now right.
        - simpl length in H. lia.
        - specialize (Hp p (or_introl eq_refl)). simpl length in Hp. lia. }
      exists (unspread p b'). split; [now apply unspread_lt|].
      rewrite template_cons, spread_unspread by auto. exact Ht.
Qed.

(** ** Sorting *)
Lemma insert_perm x l : Permutation (insert x l) (x :: l).
Proof.
  induction l as [|y l IH]; simpl; [auto|]. destruct (x <=? y); [auto|].
  rewrite IH. apply perm_swap.
Qed.

Lemma sort_perm l : Permutation (sort l) l.
Proof. induction l as [|x l IH]; simpl; [auto|]. now rewrite insert_perm, IH. Qed.

Lemma insert_sorted x l : StronglySorted N.le l -> StronglySorted N.le (insert x l).
Proof.
  induction l as [|y l IH]; intros H; simpl.
  - repeat constructor.
  - inversion H as [|? ? H1 H2]; subst. destruct (N.leb_spec x y).
    + constructor; [auto|]. constructor; [auto|]. eapply Forall_impl; [|exact H2]. simpl. lia.
    + constructor; [auto|]. rewrite insert_perm. constructor; [lia|auto].
Qed.

Lemma sort_sorted l : StronglySorted N.le (sort l).
Proof. induction l; simpl; [constructor|]. now apply insert_sorted. Qed.

Lemma sorted_strict l : StronglySorted N.le l -> NoDup l -> StronglySorted N.lt l.
Proof.
  induction 1 as [|x l H1 IH H2]; intros Hn; constructor; inversion Hn; subst; [auto|].
  rewrite Forall_forall in *. intros y Hy. specialize (H2 y Hy).
  assert (x <> y) by (intros ->; contradiction). lia.
Qed.

(** ** Masks *)
Lemma fold_lor_testbit l : forall a j,
  N.testbit (fold_left N.lor l a) j = N.testbit a j || existsb (fun x => N.testbit x j) l.
Proof.
  induction l as [|x l IH]; intros a j; simpl; [now rewrite orb_false_r|].
  rewrite IH, N.lor_spec. now rewrite orb_assoc.
Qed.

Lemma shiftl1_testbit p j : N.testbit (N.shiftl 1 p) j = (j =? p).
Proof.
  rewrite N.shiftl_1_l. rewrite N.pow2_bits_eqb. apply N.eqb_sym.
Qed.

Lemma control_mask_testbit le n cs j :
  N.testbit (control_mask le n cs) j = existsb (fun c => j =? qubit_index le n c) cs.
Proof.
  unfold control_mask. rewrite fold_lor_testbit, N.bits_0. cbn [orb].
  induction cs as [|c cs IH]; [reflexivity|]. cbn [map existsb]. now rewrite shiftl1_testbit, IH.
Qed.

Lemma shiftl_b2n_testbit (b : bool) p j : N.testbit (N.shiftl (N.b2n b) p) j = b && (j =? p).
Proof.
  destruct b; cbn [N.b2n andb]; [now rewrite shiftl1_testbit|]. now rewrite N.shiftl_0_l, N.bits_0.
Qed.

Lemma binary_cons st k : binary st (S k) = N.odd st :: binary (N.div2 st) k.
Proof.
  unfold binary. cbn [seq map]. f_equal.
  - apply N.bit0_odd.
  - rewrite <- seq_shift, map_map. apply map_ext. intros j.
    rewrite Nat2N.inj_succ. rewrite N.div2_spec, N.shiftr_spec'. f_equal. lia.
Qed.

(** Which substate bit a position receives. *)
Fixpoint tbit (le : bool) (n : N) (ts : list N) (st j : N) : bool :=
  match ts with
  | [] => false
  | q :: qs => (N.odd st && (j =? qubit_index le n q)) || tbit le n qs (N.div2 st) j
  end.

Lemma target_mask_testbit le n ts : forall st j,
  N.testbit (target_mask le n ts st) j = tbit le n ts st j.
Proof.
  unfold target_mask. intros st j. rewrite fold_lor_testbit, N.bits_0. simpl orb.
  revert st. induction ts as [|q ts IH]; intros st; [reflexivity|].
  cbn [length]. rewrite binary_cons. cbn [combine map existsb tbit fst snd].
  now rewrite shiftl_b2n_testbit, IH.
Qed.

Lemma qubit_index_bitpos le n q : qubit_index le n q = bitpos le n q.
Proof. unfold qubit_index, bitpos. destruct le; lia. Qed.

Lemma bitpos_lt le n q : q < n -> bitpos le n q < n.
Proof. unfold bitpos. destruct le; lia. Qed.

Lemma bitpos_inj le n q r : q < n -> r < n -> bitpos le n q = bitpos le n r -> q = r.
Proof. unfold bitpos. destruct le; lia. Qed.

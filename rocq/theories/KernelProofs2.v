(** Consequences for [op_apply]: inner products, endianness, density matrices, product states. *)
From Coq Require Import List NArith Bool Lia Permutation Sorted Ring.
From Verif Require Import CRing KernelModel KernelSpec KernelBits KernelProofs.
Import ListNotations.
Local Open Scope N_scope.

Section Algebra.
Variable K : cring.
Add Ring Kring3 : (r_theory K).

Lemma sumf_mul {I J} (l : list I) (m : list J) (f : I -> K) (g : J -> K) :
  rmul (sumf l f) (sumf m g) = sumf l (fun i => sumf m (fun j => rmul (f i) (g j))).
Proof.
  rewrite <- sumf_scale_r. apply sumf_ext. intros i _. now rewrite sumf_scale.
Qed.

Lemma unitary_inner sz (G : N -> N -> K) (x y : N -> K) : unitary sz G ->
  sumf (Nrange sz) (fun s => rmul (rconj (sumf (Nrange sz) (fun t => rmul (G s t) (x t))))
                                  (sumf (Nrange sz) (fun t => rmul (G s t) (y t))))
  = sumf (Nrange sz) (fun t => rmul (rconj (x t)) (y t)).
Proof.
  intros HG.
  transitivity (sumf (Nrange sz) (fun s => sumf (Nrange sz) (fun t => sumf (Nrange sz) (fun u =>
     rmul (rmul (rconj (x t)) (y u)) (rmul (rconj (G s t)) (G s u)))))).
  { apply sumf_ext. intros s _. rewrite sumf_conj, sumf_mul. apply sumf_ext. intros t _.
    apply sumf_ext. intros u _. rewrite rconj_mul. ring. }
  rewrite sumf_swap. apply sumf_ext. intros t Ht. apply In_Nrange in Ht. rewrite sumf_swap.
  transitivity (sumf (Nrange sz) (fun u => rmul (rmul (rconj (x t)) (y u)) (if t =? u then r1 else r0))).
  { apply sumf_ext. intros u Hu. apply In_Nrange in Hu. rewrite sumf_scale. now rewrite (HG t u Ht Hu). }
  rewrite (sumf_single K _ _ t).
  - rewrite N.eqb_refl. ring.
  - apply NoDup_Nrange.
  - now apply In_Nrange.
  - intros u _ Hu. destruct (N.eqb_spec t u); [congruence|]. ring.
Qed.

Section Op.
Variable (le : bool) (n : N) (ts cs : list N).
Hypothesis Hlt : forall q, In q (ts ++ cs) -> q < n.
Hypothesis Hnd : NoDup (ts ++ cs).
Let P := mkParams le n ts cs.

Lemma op_apply_block G (v : N -> K) b s : s < size P ->
  op_apply le n G ts cs v (state_index P b s)
  = sumf (Nrange (size P)) (fun t => rmul (G s t) (v (state_index P b t))).
Proof.
  intros Hs. unfold op_apply. rewrite (state_index_controls P b s : forallb (qbit le n _) cs = true).
  rewrite (read_state_index P Hlt Hnd b s Hs : read le n _ ts = s).
  unfold size, nt. rewrite N.shiftl_1_l. apply sumf_ext. intros t _.
  now rewrite (write_state_index P Hlt Hnd b s t : write le n _ ts t = _).
Qed.

Lemma inner_split (v w : N -> K) :
  inner n v w =
  radd (sumf (Nrange (iterations P)) (fun b => sumf (Nrange (size P)) (fun s =>
          rmul (rconj (v (state_index P b s))) (w (state_index P b s)))))
       (sumf (filter (fun i => negb (forallb (qbit le n i) cs)) (Nrange (2 ^ n)))
             (fun i => rmul (rconj (v i)) (w i))).
Proof.
  unfold inner. rewrite (sumf_filter K _ (fun i => forallb (qbit le n i) cs)). f_equal.
  rewrite (sumf_perm K _ _ _ (blocks_perm P Hlt Hnd)), sumf_flat_map. apply sumf_ext.
  intros b _. apply sumf_map.
Qed.

Theorem op_apply_inner G (v w : N -> K) : unitary (2 ^ N.of_nat (length ts)) G ->
  inner n (op_apply le n G ts cs v) (op_apply le n G ts cs w) = inner n v w.
Proof.
  intros HG. rewrite !inner_split. f_equal.
  - apply sumf_ext. intros b _.
    transitivity (sumf (Nrange (size P)) (fun s =>
       rmul (rconj (sumf (Nrange (size P)) (fun t => rmul (G s t) (v (state_index P b t)))))
            (sumf (Nrange (size P)) (fun t => rmul (G s t) (w (state_index P b t)))))).
    { apply sumf_ext. intros s Hs. apply In_Nrange in Hs. now rewrite !op_apply_block. }
    apply (unitary_inner (size P) G (fun t => v (state_index P b t)) (fun t => w (state_index P b t))).
    unfold size, nt. rewrite N.shiftl_1_l. exact HG.
  - apply sumf_ext. intros i Hi. apply filter_In in Hi. destruct Hi as [_ Hi].
    unfold op_apply. destruct (forallb (qbit le n i) cs); [discriminate|reflexivity].
Qed.
End Op.

Lemma norm2_inner n (v : N -> K) : norm2 n v = inner n v v.
Proof. unfold norm2, inner, rnorm. apply sumf_ext. intros. ring. Qed.

Lemma inner_ext n (v v' w w' : N -> K) :
  (forall i, i < 2 ^ n -> v i = v' i) -> (forall i, i < 2 ^ n -> w i = w' i) ->
  inner n v w = inner n v' w'.
Proof.
  intros H1 H2. unfold inner. apply sumf_ext. intros i Hi. apply In_Nrange in Hi.
  now rewrite H1, H2.
Qed.

Lemma write_lt le n ts : forall i s, (forall q, In q ts -> q < n) -> i < 2 ^ n -> write le n i ts s < 2 ^ n.
Proof.
  induction ts as [|q ts IH]; intros i s Hlt Hi; cbn [write]; [exact Hi|].
  assert (Hw : write le n i ts (N.div2 s) < 2 ^ n) by (apply IH; [intros; apply Hlt; now right|auto]).
  assert (Hq : bitpos le n q < n) by (apply bitpos_lt, Hlt; now left).
  apply testbit_lt. intros j Hj. unfold qset.
  destruct (N.odd s).
  - rewrite N.setbit_eqb, (lt_testbit n _ _ Hw Hj). destruct (N.eqb_spec (bitpos le n q) j); [lia|reflexivity].
  - rewrite N.clearbit_eqb, (lt_testbit n _ _ Hw Hj). reflexivity.
Qed.

Lemma op_apply_ext le n G G' ts cs (v w : N -> K) i :
  (forall q, In q ts -> q < n) -> i < 2 ^ n ->
  (forall s t, G s t = G' s t) ->
  (forall j, j < 2 ^ n -> v j = w j) ->
  op_apply le n G ts cs v i = op_apply le n G' ts cs w i.
Proof.
  intros Hlt Hi HG H. unfold op_apply. destruct (forallb _ cs); [|now apply H].
  apply sumf_ext. intros s _. rewrite H by now apply write_lt. now rewrite HG.
Qed.

(** ** Endianness *)
Lemma bitrev_testbit n i p : N.testbit (bitrev n i) p = (p <? n) && N.testbit i (n - 1 - p).
Proof.
  unfold bitrev.
  assert (H : forall l, (forall q, In q l -> q < n) ->
     N.testbit (fold_right (fun p0 acc => if N.testbit i p0 then N.setbit acc (n - 1 - p0) else acc) 0 l) p
     = existsb (fun q => N.testbit i q && (n - 1 - q =? p)) l).
  { induction l as [|q l IH]; intros Hl; cbn [fold_right existsb]; [apply N.bits_0|].
    rewrite <- IH by (intros; apply Hl; now right). destruct (N.testbit i q); [|reflexivity].
    now rewrite N.setbit_eqb. }
  rewrite H by (intros q Hq; now apply In_Nrange).
  destruct (N.ltb_spec p n) as [Hp|Hp]; cbn [andb].
  - destruct (N.testbit i (n - 1 - p)) eqn:E.
    + apply existsb_exists. exists (n - 1 - p). split; [apply In_Nrange; lia|]. rewrite E. apply N.eqb_eq. lia.
    + destruct (existsb _ _) eqn:Ex; [|reflexivity]. apply existsb_exists in Ex.
      destruct Ex as (q & Hq & Ex). apply In_Nrange in Hq. apply andb_true_iff in Ex.
      destruct Ex as [Ex1 Ex2]. apply N.eqb_eq in Ex2. replace (n - 1 - p) with q in E by lia. congruence.
  - destruct (existsb _ _) eqn:Ex; [|reflexivity]. apply existsb_exists in Ex.
    destruct Ex as (q & Hq & Ex). apply In_Nrange in Hq. apply andb_true_iff in Ex.
    destruct Ex as [_ Ex2]. apply N.eqb_eq in Ex2. lia.
Qed.

Lemma bitrev_lt n i : bitrev n i < 2 ^ n.
Proof.
  apply testbit_lt. intros p Hp. rewrite bitrev_testbit. destruct (N.ltb_spec p n); [lia|reflexivity].
Qed.

Lemma bitrev_invol n i : i < 2 ^ n -> bitrev n (bitrev n i) = i.
Proof.
  intros Hi. apply N.bits_inj. intros p. rewrite !bitrev_testbit.
  destruct (N.ltb_spec p n) as [Hp|Hp]; cbn [andb].
  - destruct (N.ltb_spec (n - 1 - p) n); [|lia]. cbn [andb]. f_equal. lia.
  - symmetry. now apply (lt_testbit n).
Qed.

Lemma bitrev_0 n : bitrev n 0 = 0.
Proof. apply N.bits_inj. intros p. rewrite bitrev_testbit, !N.bits_0. apply andb_false_r. Qed.

Lemma qbit_bitrev n i q : q < n -> qbit false n (bitrev n i) q = qbit true n i q.
Proof.
  intros Hq. unfold qbit, bitpos. rewrite bitrev_testbit.
  destruct (N.ltb_spec (n - 1 - q) n); [|lia]. cbn [andb]. f_equal. lia.
Qed.

Lemma read_bitrev n i ts : (forall q, In q ts -> q < n) ->
  read false n (bitrev n i) ts = read true n i ts.
Proof.
  induction ts as [|q ts IH]; intros H; cbn [read]; [reflexivity|].
  rewrite qbit_bitrev by (apply H; now left). rewrite IH; [reflexivity|]. intros; apply H; now right.
Qed.

Lemma qset_bitrev n i q b : q < n -> i < 2 ^ n ->
  bitrev n (qset true n i q b) = qset false n (bitrev n i) q b.
Proof.
  intros Hq Hi. apply N.bits_inj. intros p. unfold qset, bitpos.
  destruct b; rewrite bitrev_testbit; rewrite ?N.setbit_eqb, ?N.clearbit_eqb, bitrev_testbit.
  - destruct (N.ltb_spec p n) as [Hp|Hp]; cbn [andb].
    + f_equal. destruct (N.eqb_spec q (n - 1 - p)), (N.eqb_spec (n - 1 - q) p); lia || reflexivity.
    + rewrite orb_false_r. symmetry. destruct (N.eqb_spec (n - 1 - q) p); [lia|reflexivity].
  - destruct (N.ltb_spec p n) as [Hp|Hp]; cbn [andb]; [|reflexivity].
    f_equal. f_equal. destruct (N.eqb_spec q (n - 1 - p)), (N.eqb_spec (n - 1 - q) p); lia || reflexivity.
Qed.

Lemma write_bitrev n ts : forall i s, (forall q, In q ts -> q < n) -> i < 2 ^ n ->
  bitrev n (write true n i ts s) = write false n (bitrev n i) ts s.
Proof.
  induction ts as [|q ts IH]; intros i s H Hi; cbn [write]; [reflexivity|].
  assert (Hts : forall r, In r ts -> r < n) by (intros; apply H; now right).
  rewrite qset_bitrev; [|apply H; now left|now apply write_lt]. now rewrite IH.
Qed.

Theorem op_apply_bitrev n G ts cs (v w : N -> K) i :
  (forall q, In q (ts ++ cs) -> q < n) -> i < 2 ^ n ->
  (forall j, j < 2 ^ n -> v j = w (bitrev n j)) ->
  op_apply true n G ts cs v i = op_apply false n G ts cs w (bitrev n i).
Proof.
  intros H Hi Hv.
  assert (Hts : forall q, In q ts -> q < n) by (intros; apply H, in_or_app; auto).
  assert (Hc : forallb (qbit false n (bitrev n i)) cs = forallb (qbit true n i) cs).
  { clear - H. induction cs as [|q l IH]; [reflexivity|]. cbn [forallb].
    rewrite qbit_bitrev by (apply H, in_or_app; right; now left). rewrite IH; [reflexivity|].
    intros r Hr. apply H. apply in_app_or in Hr. apply in_or_app. destruct Hr; [auto|right; now right]. }
  unfold op_apply. rewrite Hc. destruct (forallb (qbit true n i) cs); [|now apply Hv].
  rewrite read_bitrev by auto. apply sumf_ext. intros s _.
  rewrite Hv by now apply write_lt. now rewrite write_bitrev.
Qed.

(** ** Rows and columns of a density matrix *)
Lemma rowcol_testbit n r c j : c < 2 ^ n ->
  N.testbit (rowcol n r c) j = if j <? n then N.testbit c j else N.testbit r (j - n).
Proof.
  intros Hc. unfold rowcol.
  assert (E : r * 2 ^ n + c = N.lor (N.shiftl r n) c).
  { rewrite N.shiftl_mul_pow2. rewrite N.add_nocarry_lxor.
    - apply N.lxor_lor. apply N.bits_inj. intros k. rewrite N.land_spec, N.bits_0.
      rewrite <- N.shiftl_mul_pow2. destruct (N.ltb_spec k n).
      + now rewrite N.shiftl_spec_low.
      + now rewrite (lt_testbit n c k) by auto; rewrite andb_false_r.
    - apply N.bits_inj. intros k. rewrite N.land_spec, N.bits_0.
      rewrite <- N.shiftl_mul_pow2. destruct (N.ltb_spec k n).
      + now rewrite N.shiftl_spec_low.
      + now rewrite (lt_testbit n c k) by auto; rewrite andb_false_r. }
  rewrite E, N.lor_spec. destruct (N.ltb_spec j n).
  - now rewrite N.shiftl_spec_low.
  - rewrite N.shiftl_spec_high'; [|lia]. rewrite (lt_testbit n c j) by auto. apply orb_false_r.
Qed.

Lemma rowcol_lt n r c : r < 2 ^ n -> c < 2 ^ n -> rowcol n r c < 2 ^ (2 * n).
Proof. unfold rowcol. intros. replace (2 * n) with (n + n) by lia. rewrite N.pow_add_r. nia. Qed.

Lemma rowcol_surj n i : i < 2 ^ (2 * n) ->
  exists r c, r < 2 ^ n /\ c < 2 ^ n /\ i = rowcol n r c.
Proof.
  intros Hi. assert (Hz : 2 ^ n <> 0) by (apply N.pow_nonzero; lia).
  exists (i / 2 ^ n), (i mod 2 ^ n). repeat split.
  - apply N.div_lt_upper_bound; [auto|]. rewrite <- N.pow_add_r. now replace (n + n) with (2 * n) by lia.
  - now apply N.mod_lt.
  - unfold rowcol. rewrite (N.mul_comm (i / 2 ^ n)). now apply N.div_mod.
Qed.

Lemma qbit_row n r c q : q < n -> c < 2 ^ n -> qbit false (2 * n) (rowcol n r c) q = qbit false n r q.
Proof.
  intros Hq Hc. unfold qbit, bitpos. rewrite rowcol_testbit by auto.
  destruct (N.ltb_spec (2 * n - 1 - q) n); [lia|]. f_equal. lia.
Qed.

Lemma qbit_col n r c q : q < n -> c < 2 ^ n ->
  qbit false (2 * n) (rowcol n r c) (q + n) = qbit false n c q.
Proof.
  intros Hq Hc. unfold qbit, bitpos. rewrite rowcol_testbit by auto.
  destruct (N.ltb_spec (2 * n - 1 - (q + n)) n); [|lia]. f_equal. lia.
Qed.

Lemma qset_lt le n i q b : q < n -> i < 2 ^ n -> qset le n i q b < 2 ^ n.
Proof.
  intros Hq Hi. assert (Hp : bitpos le n q < n) by now apply bitpos_lt.
  apply testbit_lt. intros j Hj. unfold qset. destruct b.
  - rewrite N.setbit_eqb, (lt_testbit n _ _ Hi Hj). destruct (N.eqb_spec (bitpos le n q) j); [lia|reflexivity].
  - now rewrite N.clearbit_eqb, (lt_testbit n _ _ Hi Hj).
Qed.

Lemma qset_row n r c q b : q < n -> c < 2 ^ n ->
  qset false (2 * n) (rowcol n r c) q b = rowcol n (qset false n r q b) c.
Proof.
  intros Hq Hc. apply N.bits_inj. intros j. rewrite rowcol_testbit by auto.
  unfold qset, bitpos. destruct b; rewrite ?N.setbit_eqb, ?N.clearbit_eqb, rowcol_testbit by auto;
    destruct (N.ltb_spec j n) as [Hj|Hj];
    destruct (N.eqb_spec (2 * n - 1 - q) j), (N.eqb_spec (n - 1 - q) (j - n)); try lia; cbn [orb andb negb];
    rewrite ?andb_true_r, ?andb_false_r; reflexivity.
Qed.

Lemma qset_col n r c q b : q < n -> c < 2 ^ n ->
  qset false (2 * n) (rowcol n r c) (q + n) b = rowcol n r (qset false n c q b).
Proof.
  intros Hq Hc. apply N.bits_inj. intros j.
  rewrite (rowcol_testbit n r (qset false n c q b)) by now apply qset_lt.
  unfold qset, bitpos. destruct b; rewrite ?N.setbit_eqb, ?N.clearbit_eqb, rowcol_testbit by auto;
    destruct (N.ltb_spec j n) as [Hj|Hj];
    destruct (N.eqb_spec (2 * n - 1 - (q + n)) j), (N.eqb_spec (n - 1 - q) j); try lia; cbn [orb andb negb];
    rewrite ?andb_true_r, ?andb_false_r; reflexivity.
Qed.

Lemma read_row n r c ts : (forall q, In q ts -> q < n) -> c < 2 ^ n ->
  read false (2 * n) (rowcol n r c) ts = read false n r ts.
Proof.
  intros H Hc. induction ts as [|q ts IH]; cbn [read]; [reflexivity|].
  rewrite qbit_row by (auto; apply H; now left). rewrite IH; [reflexivity|]. intros; apply H; now right.
Qed.

Lemma read_col n r c ts : (forall q, In q ts -> q < n) -> c < 2 ^ n ->
  read false (2 * n) (rowcol n r c) (map (fun t => t + n) ts) = read false n c ts.
Proof.
  intros H Hc. induction ts as [|q ts IH]; cbn [map read]; [reflexivity|].
  rewrite qbit_col by (auto; apply H; now left). rewrite IH; [reflexivity|]. intros; apply H; now right.
Qed.

Lemma write_row n ts : forall r c s, (forall q, In q ts -> q < n) -> c < 2 ^ n ->
  write false (2 * n) (rowcol n r c) ts s = rowcol n (write false n r ts s) c.
Proof.
  induction ts as [|q ts IH]; intros r c s H Hc; cbn [write]; [reflexivity|].
  rewrite IH by (auto; intros; apply H; now right). apply qset_row; [apply H; now left|auto].
Qed.

Lemma write_col n ts : forall r c s, (forall q, In q ts -> q < n) -> c < 2 ^ n ->
  write false (2 * n) (rowcol n r c) (map (fun t => t + n) ts) s = rowcol n r (write false n c ts s).
Proof.
  induction ts as [|q ts IH]; intros r c s H Hc; cbn [map write]; [reflexivity|].
  assert (Hts : forall x, In x ts -> x < n) by (intros; apply H; now right).
  rewrite IH by auto. apply qset_col; [apply H; now left|now apply write_lt].
Qed.

Lemma op_apply_row n G ts cs (rho : N -> K) r c :
  (forall q, In q (ts ++ cs) -> q < n) -> c < 2 ^ n ->
  op_apply false (2 * n) G ts cs rho (rowcol n r c)
  = op_apply false n G ts cs (fun r' => rho (rowcol n r' c)) r.
Proof.
  intros H Hc.
  assert (Hts : forall q, In q ts -> q < n) by (intros; apply H, in_or_app; auto).
  assert (Hcs : forall q, In q cs -> q < n) by (intros; apply H, in_or_app; auto).
  assert (Hf : forallb (qbit false (2 * n) (rowcol n r c)) cs = forallb (qbit false n r) cs).
  { clear H. induction cs as [|q l IH]; [reflexivity|]. cbn [forallb].
    rewrite qbit_row by (auto; apply Hcs; now left). rewrite IH; [reflexivity|]. intros; apply Hcs; now right. }
  unfold op_apply. rewrite Hf. clear Hf. destruct (forallb (qbit false n r) cs); [|reflexivity].
  rewrite read_row by auto. apply sumf_ext. intros s _. now rewrite write_row.
Qed.

Lemma op_apply_col n G ts cs (rho : N -> K) r c :
  (forall q, In q (ts ++ cs) -> q < n) -> c < 2 ^ n ->
  op_apply false (2 * n) G (map (fun t => t + n) ts) (map (fun t => t + n) cs) rho (rowcol n r c)
  = op_apply false n G ts cs (fun c' => rho (rowcol n r c')) c.
Proof.
  intros H Hc.
  assert (Hts : forall q, In q ts -> q < n) by (intros; apply H, in_or_app; auto).
  assert (Hcs : forall q, In q cs -> q < n) by (intros; apply H, in_or_app; auto).
  assert (Hf : forallb (qbit false (2 * n) (rowcol n r c)) (map (fun t => t + n) cs) = forallb (qbit false n c) cs).
  { clear H. induction cs as [|q l IH]; [reflexivity|]. cbn [map forallb].
    rewrite qbit_col by (auto; apply Hcs; now left). rewrite IH; [reflexivity|]. intros; apply Hcs; now right. }
  unfold op_apply. rewrite Hf, map_length. clear Hf. destruct (forallb (qbit false n c) cs); [|reflexivity].
  rewrite read_col by auto. apply sumf_ext. intros s _. now rewrite write_col.
Qed.

Lemma op_apply_scale le n G ts cs (v : N -> K) a i :
  op_apply le n G ts cs (fun j => rmul (v j) a) i = rmul (op_apply le n G ts cs v i) a.
Proof.
  unfold op_apply. destruct (forallb _ cs); [|reflexivity].
  rewrite <- sumf_scale_r. apply sumf_ext. intros. ring.
Qed.

Lemma op_apply_conj le n G ts cs (v : N -> K) i :
  op_apply le n (fun s t => rconj (G s t)) ts cs (fun j => rconj (v j)) i
  = rconj (op_apply le n G ts cs v i).
Proof.
  unfold op_apply. destruct (forallb _ cs); [|reflexivity].
  rewrite sumf_conj. apply sumf_ext. intros. now rewrite rconj_mul.
Qed.

(** Applying the gate to the row qubits and its conjugate to the column qubits. *)
Theorem op_apply_density n G ts cs (rho v : N -> K) :
  (forall q, In q (ts ++ cs) -> q < n) ->
  (forall r c, r < 2 ^ n -> c < 2 ^ n -> rho (rowcol n r c) = rmul (v r) (rconj (v c))) ->
  forall r c, r < 2 ^ n -> c < 2 ^ n ->
    op_apply false (2 * n) (fun s t => rconj (G s t)) (map (fun t => t + n) ts) (map (fun t => t + n) cs)
      (op_apply false (2 * n) G ts cs rho) (rowcol n r c)
    = rmul (op_apply false n G ts cs v r) (rconj (op_apply false n G ts cs v c)).
Proof.
  intros H Hrho r c Hr Hc. rewrite op_apply_col by auto.
  assert (Hts : forall q, In q ts -> q < n) by (intros; apply H, in_or_app; auto).
  rewrite (op_apply_ext false n _ (fun s t => rconj (G s t)) ts cs _
     (fun c' => rmul (rconj (v c')) (op_apply false n G ts cs v r))); [|auto|auto|auto|].
  - rewrite op_apply_scale, op_apply_conj. ring.
  - intros c' Hc'. rewrite op_apply_row by auto.
    rewrite (op_apply_ext false n _ G ts cs _ (fun r' => rmul (v r') (rconj (v c')))); [|auto|auto|auto|auto].
    rewrite op_apply_scale. ring.
Qed.

(** ** Product states *)
Lemma prodf_ext {I} (l : list I) (f g : I -> K) : (forall i, In i l -> f i = g i) -> prodf l f = prodf l g.
Proof.
  induction l as [|i l IH]; intros H; cbn [prodf fold_right]; [reflexivity|].
  rewrite H by now left. unfold prodf in IH. rewrite IH; [reflexivity|]. intros; apply H; now right.
Qed.

Lemma prodf_split {I} (dec : forall x y : I, {x = y} + {x <> y}) (l : list I) (f : I -> K) t :
  NoDup l -> In t l ->
  prodf l f = rmul (f t) (prodf (filter (fun i => if dec i t then false else true) l) f).
Proof.
  induction 1 as [|i l Hi Hl IH]; intros Ht; [destruct Ht|]. cbn [filter].
  destruct (dec i t) as [->|Hne].
  - cbn [prodf fold_right]. f_equal.
    assert (E : filter (fun i => if dec i t then false else true) l = l).
    { clear IH Ht. induction l as [|j l IHl]; [reflexivity|]. cbn [filter].
      destruct (dec j t) as [->|_]; [exfalso; apply Hi; now left|].
      f_equal. inversion Hl; subst. apply IHl; [intros Hx; apply Hi; now right|auto]. }
    now rewrite E.
  - destruct Ht as [Ht|Ht]; [congruence|]. cbn [prodf fold_right]. unfold prodf in IH. rewrite IH by auto. ring.
Qed.

Lemma qbit_qset_same le n i q b : qbit le n (qset le n i q b) q = b.
Proof.
  unfold qbit, qset. destruct b; [rewrite N.setbit_eqb, N.eqb_refl; reflexivity|].
  rewrite N.clearbit_eqb, N.eqb_refl. apply andb_false_r.
Qed.

Lemma qbit_qset_other le n i q r b : q < n -> r < n -> q <> r -> qbit le n (qset le n i q b) r = qbit le n i r.
Proof.
  intros Hq Hr Hne. unfold qbit, qset.
  assert (E : (bitpos le n q =? bitpos le n r) = false).
  { apply N.eqb_neq. intros E. apply bitpos_inj in E; auto. }
  destruct b; [rewrite N.setbit_eqb, E; reflexivity|]. rewrite N.clearbit_eqb, E. apply andb_true_r.
Qed.

Theorem op_apply_product le n G t (a : N -> bool -> K) i : t < n ->
  op_apply le n G [t] [] (product_state le n a) i
  = product_state le n
      (fun q b => if q =? t then radd (rmul (G (N.b2n b) 0) (a t false)) (rmul (G (N.b2n b) 1) (a t true))
                  else a q b) i.
Proof.
  intros Ht. unfold op_apply. cbn [forallb length]. change (2 ^ N.of_nat 1) with 2.
  change (Nrange 2) with [0; 1]. cbn [sumf fold_right read write].
  replace (N.b2n (qbit le n i t) + 2 * 0) with (N.b2n (qbit le n i t)) by lia.
  unfold product_state.
  assert (Hin : In t (Nrange n)) by now apply In_Nrange.
  rewrite !(prodf_split N.eq_dec (Nrange n) _ t (NoDup_Nrange n) Hin).
  rewrite !qbit_qset_same, N.eqb_refl.
  assert (E : forall b, prodf (filter (fun q => if N.eq_dec q t then false else true) (Nrange n))
                 (fun q => a q (qbit le n (qset le n i t b) q))
             = prodf (filter (fun q => if N.eq_dec q t then false else true) (Nrange n))
                 (fun q => a q (qbit le n i q))).
  { intros b. apply prodf_ext. intros q Hq. apply filter_In in Hq. destruct Hq as [Hq Hd].
    apply In_Nrange in Hq. destruct (N.eq_dec q t); [discriminate|]. now rewrite qbit_qset_other by auto. }
  rewrite !E.
  assert (E2 : prodf (filter (fun q => if N.eq_dec q t then false else true) (Nrange n))
       (fun q => (fun q b => if q =? t then radd (rmul (G (N.b2n b) 0) (a t false)) (rmul (G (N.b2n b) 1) (a t true))
                  else a q b) q (qbit le n i q))
      = prodf (filter (fun q => if N.eq_dec q t then false else true) (Nrange n))
                 (fun q => a q (qbit le n i q))).
  { apply prodf_ext. intros q Hq. apply filter_In in Hq. destruct Hq as [_ Hd].
    destruct (N.eq_dec q t); [discriminate|]. destruct (N.eqb_spec q t); [congruence|reflexivity]. }
  cbn beta in E2. rewrite E2. change (N.odd 0) with false. change (N.odd 1) with true. ring.
Qed.

End Algebra.

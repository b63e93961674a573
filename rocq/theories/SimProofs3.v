(** Operator sets and measurement over the complex numbers. *)
From Coq Require Import List NArith Arith Bool Lia Ring Reals Lra.
From Verif Require Import Py CRing Cplx KernelModel KernelSpec KernelBits KernelProofs KernelProofs2
  SimModel SimReal SimSpec SimProofs SimProofs2.
Import ListNotations.
Local Open Scope N_scope.

Section Complete.
Variable K : cring.
Add Ring KringS3 : (r_theory K).

Lemma complete_inner sz (Gs : list (N -> N -> K)) (x y : N -> K) : complete sz Gs ->
  sumf Gs (fun G =>
    sumf (Nrange sz) (fun s => rmul (rconj (sumf (Nrange sz) (fun t => rmul (G s t) (x t))))
                                    (sumf (Nrange sz) (fun t => rmul (G s t) (y t)))))
  = sumf (Nrange sz) (fun t => rmul (rconj (x t)) (y t)).
Proof.
  intros HG.
  transitivity (sumf Gs (fun G => sumf (Nrange sz) (fun t => sumf (Nrange sz) (fun u =>
     rmul (rmul (rconj (x t)) (y u)) (sumf (Nrange sz) (fun s => rmul (rconj (G s t)) (G s u))))))).
  { apply sumf_ext. intros G _.
    transitivity (sumf (Nrange sz) (fun s => sumf (Nrange sz) (fun t => sumf (Nrange sz) (fun u =>
       rmul (rmul (rconj (x t)) (y u)) (rmul (rconj (G s t)) (G s u)))))).
    { apply sumf_ext. intros s _. rewrite sumf_conj, sumf_mul. apply sumf_ext. intros t _.
      apply sumf_ext. intros u _. rewrite rconj_mul. ring. }
    rewrite sumf_swap. apply sumf_ext. intros t _. rewrite sumf_swap. apply sumf_ext. intros u _.
    apply sumf_scale. }
  rewrite sumf_swap. apply sumf_ext. intros t Ht. apply In_Nrange in Ht. rewrite sumf_swap.
  transitivity (sumf (Nrange sz) (fun u => rmul (rmul (rconj (x t)) (y u)) (if t =? u then r1 else r0))).
  { apply sumf_ext. intros u Hu. apply In_Nrange in Hu. rewrite sumf_scale. now rewrite (HG t u Ht Hu). }
  rewrite (sumf_single K _ _ t).
  - rewrite N.eqb_refl. ring.
  - apply NoDup_Nrange.
  - now apply In_Nrange.
  - intros u _ Hu. destruct (N.eqb_spec t u); [congruence|]. ring.
Qed.

Lemma complete_op_inner le n ts (Gs : list (N -> N -> K)) (v w : N -> K) :
  (forall q, In q ts -> q < n) -> NoDup ts -> complete (2 ^ N.of_nat (length ts)) Gs ->
  sumf Gs (fun G => inner n (op_apply le n G ts [] v) (op_apply le n G ts [] w)) = inner n v w.
Proof.
  intros Hlt Hnd HG.
  assert (Hlt' : forall q, In q (ts ++ []) -> q < n) by (rewrite app_nil_r; exact Hlt).
  assert (Hnd' : NoDup (ts ++ [])) by (rewrite app_nil_r; exact Hnd).
  assert (Hf : forall (l : list N), filter (fun i => negb (forallb (qbit le n i) [])) l = []).
  { induction l as [|i l IH]; [reflexivity|exact IH]. }
  set (P := mkParams le n ts []).
  assert (Hs : forall a b : N -> K, inner n a b =
     sumf (Nrange (iterations P)) (fun b0 => sumf (Nrange (size P)) (fun s =>
          rmul (rconj (a (state_index P b0 s))) (b (state_index P b0 s))))).
  { intros a b. rewrite (inner_split K le n ts [] Hlt' Hnd'), Hf. cbn [sumf fold_right]. unfold P.
    transitivity (radd (inner n a b) r0); [|rewrite (inner_split K le n ts [] Hlt' Hnd'), Hf; cbn [sumf fold_right]; ring].
    rewrite (inner_split K le n ts [] Hlt' Hnd'), Hf. cbn [sumf fold_right]. ring. }
  rewrite (Hs v w).
  transitivity (sumf Gs (fun G => sumf (Nrange (iterations P)) (fun b => sumf (Nrange (size P)) (fun s =>
       rmul (rconj (sumf (Nrange (size P)) (fun t => rmul (G s t) (v (state_index P b t)))))
            (sumf (Nrange (size P)) (fun t => rmul (G s t) (w (state_index P b t)))))))).
  { apply sumf_ext. intros G _. rewrite Hs. apply sumf_ext. intros b _. apply sumf_ext. intros s Hs'.
    apply In_Nrange in Hs'. unfold P. now rewrite !(op_apply_block K le n ts [] Hlt' Hnd'). }
  rewrite sumf_swap. apply sumf_ext. intros b _.
  apply (complete_inner (size P) Gs (fun t => v (state_index P b t)) (fun t => w (state_index P b t))).
  unfold size, nt. rewrite N.shiftl_1_l. exact HG.
Qed.
End Complete.

Local Open Scope R_scope.

Definition Rnorm2 (n : N) (v : N -> C) : R := Rsum (Nrange (2 ^ n)) (fun i => Cnorm2 (v i)).

Lemma norm2_real n (v : N -> C) : @norm2 Ccring n v = RtoC (Rnorm2 n v).
Proof. apply sumf_real. intros i _. apply rnorm_C. Qed.

Lemma inner_real n (v : N -> C) : @inner Ccring n v v = RtoC (Rnorm2 n v).
Proof. rewrite <- norm2_real. symmetry. apply norm2_inner. Qed.

Lemma Rnorm2_nonneg n v : 0 <= Rnorm2 n v.
Proof. apply Rsum_nonneg. intros. apply Cnorm2_pos. Qed.

Lemma Rnorm2_ext n v w : (forall i, (i < 2 ^ n)%N -> v i = w i) -> Rnorm2 n v = Rnorm2 n w.
Proof. intros H. apply Rsum_ext. intros i Hi. apply In_Nrange in Hi. now rewrite H. Qed.

Lemma RtoC_inj a b : RtoC a = RtoC b -> a = b.
Proof. unfold RtoC. congruence. Qed.

Definition vals (g : N -> N -> entry Ccring) : N -> N -> C := fun i j => entry_val (g i j).

Lemma kernel_norm_real le n ts g (v : N -> C) :
  (n <= 30)%N -> (forall q, In q ts -> (q < n)%N) -> NoDup ts ->
  kernel_norm (K := Ccring) (mkParams le n ts []) g v = Some (RtoC (Rnorm2 n (@op_apply Ccring le n (vals g) ts [] v)) : Ccring).
Proof.
  intros Hn Hl Hnd.
  rewrite (kernel_norm_correct Ccring (mkParams le n ts []) g v Hn); cbn [p_targets p_controls p_n p_le];
    try (rewrite app_nil_r; assumption).
  f_equal. rewrite <- norm2_real. unfold norm2.
  assert (Hf : forall (l : list N), filter (fun i => forallb (qbit le n i) []) l = l).
  { induction l as [|i l IH]; [reflexivity|]. simpl. f_equal. exact IH. }
  now rewrite Hf.
Qed.

(** Probabilities of the operators of a set. *)
Definition op_prob (le : bool) (n : N) (ts : list N) (v : N -> C) (g : N -> N -> entry Ccring) : R :=
  Rnorm2 n (@op_apply Ccring le n (vals g) ts [] v).

Lemma op_prob_sum le n ts gs v : (forall q, In q ts -> (q < n)%N) -> NoDup ts ->
  @complete Ccring (2 ^ N.of_nat (length ts)) (map vals gs) ->
  Rsum gs (op_prob le n ts v) = Rnorm2 n v.
Proof.
  intros Hl Hnd Hc. apply RtoC_inj. rewrite <- inner_real.
  rewrite <- (complete_op_inner Ccring le n ts (map vals gs) v v Hl Hnd Hc).
  rewrite sumf_map. symmetry. apply sumf_real. intros g _. apply inner_real.
Qed.

Lemma choose_spec le n ts (v : N -> C) u : (n <= 30)%N -> (forall q, In q ts -> (q < n)%N) -> NoDup ts ->
  forall gs idx t, gs <> [] -> t <= u -> u < t + Rsum gs (op_prob le n ts v) ->
  exists k g, nth_error gs k = Some g /\
    choose Ccring R Cgtb (mkParams le n ts []) gs idx (RtoC t) u v
      = Ok ((idx + k)%nat, RtoC (op_prob le n ts v g), false) /\
    t + Rsum (firstn k gs) (op_prob le n ts v) <= u < t + Rsum (firstn k gs) (op_prob le n ts v) + op_prob le n ts v g.
Proof.
  intros Hn Hl Hnd. induction gs as [|g gs IH]; intros idx t Hne Ht Hu; [congruence|].
  cbn [choose]. rewrite kernel_norm_real by auto. cbn [get bind]. fold (op_prob le n ts v g).
  cbn [Rsum fold_right] in Hu. fold (Rsum gs (op_prob le n ts v)) in Hu.
  assert (Eadd : @radd Ccring (RtoC t) (RtoC (op_prob le n ts v g)) = RtoC (t + op_prob le n ts v g)).
  { cbn [radd Ccring]. unfold Cadd, RtoC, Re, Im. cbn [fst snd]. f_equal. ring. }
  rewrite Eadd.
  assert (Hg : forall x, Cgtb (RtoC x) u = true <-> u < x).
  { intros x. unfold Cgtb, RtoC, Re. cbn [fst]. destruct (Rlt_dec u x); split; auto; discriminate. }
  destruct gs as [|g' gs'].
  - exists 0%nat, g. split; [reflexivity|]. cbn [firstn Rsum fold_right] in *.
    assert (E : Cgtb (RtoC (t + op_prob le n ts v g)) u = true) by (apply Hg; lra).
    rewrite E. cbn [negb]. rewrite Nat.add_0_r. split; [reflexivity|lra].
  - destruct (Cgtb (RtoC (t + op_prob le n ts v g)) u) eqn:E.
    + apply Hg in E. exists 0%nat, g. split; [reflexivity|]. rewrite Nat.add_0_r.
      split; [reflexivity|]. cbn [firstn Rsum fold_right]. lra.
    + assert (Hle : t + op_prob le n ts v g <= u).
      { apply Rnot_lt_le. intros Hlt. apply Hg in Hlt. congruence. }
      destruct (IH (S idx) (t + op_prob le n ts v g)) as (k & gk & Hk & Ec & Hb); [discriminate|auto|lra|].
      exists (S k), gk. split; [exact Hk|]. rewrite Ec. split; [f_equal; f_equal; f_equal; lia|].
      cbn [firstn Rsum fold_right]. fold (Rsum (firstn k (g' :: gs')) (op_prob le n ts v)). lra.
Qed.

Lemma Rnorm2_scale n v a : Rnorm2 n (fun i => @rmul Ccring (RtoC a) (v i)) = a * a * Rnorm2 n v.
Proof.
  unfold Rnorm2. rewrite <- Rsum_scale. apply Rsum_ext. intros i _. unfold Cnorm2, RtoC.
  cbn [rmul Ccring Cmul]. unfold Cmul, Re, Im. cbn [fst snd]. ring.
Qed.

Lemma kernel_scaled le n ts g a (v : N -> C) :
  (n <= 30)%N -> (forall q, In q ts -> (q < n)%N) -> NoDup ts ->
  exists v', kernel (K := Ccring) (mkParams le n ts []) g (Some (RtoC a : Ccring)) v = Some v' /\
    forall i, (i < 2 ^ n)%N -> v' i = Cmul (RtoC a) (@op_apply Ccring le n (vals g) ts [] v i).
Proof.
  intros Hn Hl Hnd.
  destruct (kernel_correct Ccring (mkParams le n ts []) g (Some (RtoC a : Ccring)) v Hn) as (v' & E & H & _);
    cbn [p_targets p_controls p_n p_le] in *; try (rewrite app_nil_r; assumption).
  exists v'. split; [exact E|]. intros i Hi. rewrite H by auto.
  unfold op_apply. cbn [forallb]. rewrite <- (sumf_scale Ccring). apply sumf_ext. intros s _. unfold scaled, vals.
  apply (Rmul_assoc (r_theory Ccring)) || (symmetry; apply (Rmul_assoc (r_theory Ccring))).
Qed.

(** The driver on a normalised state. *)
Theorem op_set_correct le n ts gs u (v : N -> C) apply :
  (n <= 30)%N -> (forall q, In q ts -> (q < n)%N) -> NoDup ts ->
  @complete Ccring (2 ^ N.of_nat (length ts)) (map vals gs) -> gs <> [] ->
  normalised n v -> uniform u ->
  exists k g v', nth_error gs k = Some g /\
    op_set_C (mkParams le n ts []) gs u apply v = Ok (k, false, v') /\
    Rsum (firstn k gs) (op_prob le n ts v) <= u < Rsum (firstn k gs) (op_prob le n ts v) + op_prob le n ts v g /\
    (apply = false -> v' = v) /\
    (apply = true -> normalised n v' /\
       forall i, (i < 2 ^ n)%N -> v' i = Cmul (RtoC (1 / sqrt (op_prob le n ts v g)))
                                              (@op_apply Ccring le n (vals g) ts [] v i)).
Proof.
  intros Hn Hl Hnd Hc Hne Hv [Hu0 Hu1].
  assert (Hsum : Rsum gs (op_prob le n ts v) = 1) by (rewrite op_prob_sum by auto; exact Hv).
  destruct (choose_spec le n ts v u Hn Hl Hnd gs 0 0 Hne Hu0) as (k & g & Hk & Ec & Hb); [lra|].
  set (p := op_prob le n ts v g) in *.
  assert (Hp : 0 < p) by lra.
  unfold op_set_C, op_set. change (@r0 Ccring) with (RtoC 0). rewrite Ec. cbn [bind Nat.add].
  assert (E0 : Cis0 (RtoC p) = false).
  { unfold Cis0, RtoC, Re. cbn [fst]. destruct (Req_EM_T p 0); [lra|reflexivity]. }
  rewrite E0. rewrite !Rplus_0_l in Hb.
  destruct apply.
  - rewrite Hk. unfold Cinvsqrt at 1. change (Re (RtoC p)) with p.
    destruct (kernel_scaled le n ts g (1 / sqrt p) v Hn Hl Hnd) as (v' & Ev & Hv').
    rewrite Ev. cbn [get bind]. exists k, g, v'. split; [exact Hk|]. split; [reflexivity|].
    split; [exact Hb|]. split; [discriminate|]. intros _. split; [|exact Hv'].
    unfold normalised. fold (Rnorm2 n v'). rewrite (Rnorm2_ext n v' _ Hv').
    change Cmul with (@rmul Ccring). rewrite Rnorm2_scale.
    fold (op_prob le n ts v g). fold p.
    assert (Hs : sqrt p * sqrt p = p) by (apply sqrt_sqrt; lra).
    assert (Hs0 : sqrt p <> 0) by (intros E; rewrite E in Hs; lra).
    replace (1 / sqrt p * (1 / sqrt p)) with (/ (sqrt p * sqrt p)) by (field; auto).
    rewrite Hs. field. lra.
  - exists k, g, v. split; [exact Hk|]. split; [reflexivity|]. split; [exact Hb|].
    split; [reflexivity|]. intros E. discriminate E.
Qed.

(** ** Measurement *)
Lemma meas_complete : @complete Ccring 2 (map vals (meas_ops Ccring)).
Proof.
  intros i j Hi Hj. assert (Hc : forall x, (x < 2)%N -> (x = 0 \/ x = 1)%N) by lia.
  change (Nrange 2) with [0%N; 1%N].
  destruct (Hc i Hi) as [->| ->], (Hc j Hj) as [->| ->]; unfold vals, meas_ops; simpl; ceq; ring.
Qed.

Lemma op_apply_meas le n q b (v : N -> C) i : (b < 2)%N ->
  @op_apply Ccring le n (vals (meas_gate b)) [q] [] v i
  = if Bool.eqb (qbit le n i q) (N.eqb b 1) then v i else C0.
Proof.
  intros Hb. unfold op_apply. cbn [forallb length]. change (2 ^ N.of_nat 1)%N with 2%N.
  change (Nrange 2) with [0%N; 1%N]. cbn [read write sumf fold_right].
  change (N.odd 0) with false. change (N.odd 1) with true.
  assert (Hq' : qset le n i q (qbit le n i q) = i).
  { apply N.bits_inj. intros j. rewrite qset_testbit. unfold qbit.
    destruct (N.eqb_spec j (bitpos le n q)) as [->|]; reflexivity. }
  replace (v i) with (v (qset le n i q (qbit le n i q))) by (now rewrite Hq').
  assert (Hc : (b = 0 \/ b = 1)%N) by lia. clear Hq'.
  generalize (qset le n i q). intros f.
  destruct (qbit le n i q); destruct Hc as [->| ->]; unfold vals, meas_gate; simpl; ceq; ring.
Qed.

Lemma op_prob_meas le n q b v : (b < 2)%N ->
  op_prob le n [q] v (meas_gate b) = prob le n q (N.eqb b 1) v.
Proof.
  intros Hb. unfold op_prob, Rnorm2, prob.
  assert (H : forall l, Rsum l (fun i => Cnorm2 (@op_apply Ccring le n (vals (meas_gate b)) [q] [] v i))
     = Rsum (filter (fun i => Bool.eqb (qbit le n i q) (N.eqb b 1)) l) (fun i => Cnorm2 (v i))).
  { induction l as [|i l IH]; [reflexivity|]. cbn [Rsum fold_right filter].
    rewrite op_apply_meas by auto. fold (Rsum l (fun i => Cnorm2 (@op_apply Ccring le n (vals (meas_gate b)) [q] [] v i))).
    rewrite IH. destruct (Bool.eqb _ _).
    - reflexivity.
    - replace (Cnorm2 C0) with 0 by (unfold Cnorm2, C0, Re, Im; cbn [fst snd]; ring).
      rewrite Rplus_0_l. reflexivity. }
  apply H.
Qed.

Lemma prob_split le n q v : prob le n q false v + prob le n q true v = Rnorm2 n v.
Proof.
  unfold prob, Rnorm2. induction (Nrange (2 ^ n)) as [|i l IH]; simpl; [ring|].
  destruct (qbit le n i q); simpl; lra.
Qed.

Theorem measurement_correct le n q u (v : N -> C) :
  (n <= 30)%N -> (q < n)%N -> normalised n v -> uniform u ->
  exists (o : bool) v',
    sample_qubit_C le n q u true v = Ok (if o then 1%nat else 0%nat, false, v') /\
    (o = false <-> u < prob le n q false v) /\
    0 < prob le n q o v /\
    normalised n v' /\
    (forall i, (i < 2 ^ n)%N ->
       v' i = if Bool.eqb (qbit le n i q) o then Cmul (RtoC (1 / sqrt (prob le n q o v))) (v i) else C0).
Proof.
  intros Hn Hq Hv Hu.
  destruct (op_set_correct le n [q] (meas_ops Ccring) u v true) as (k & g & v' & Hk & E & Hb & _ & Hap); auto.
  { intros x [<-|[]]; auto. }
  { constructor; [intros []|constructor]. }
  { exact meas_complete. }
  { discriminate. }
  destruct (Hap eq_refl) as [Hnorm Hval].
  assert (Hcase : (k = 0%nat /\ g = meas_gate 0) \/ (k = 1%nat /\ g = meas_gate 1)).
  { destruct k as [|[|k]]; simpl in Hk; [left|right|destruct k; discriminate]; split; congruence. }
  destruct Hcase as [[-> ->]|[-> ->]].
  - exists false, v'. split; [exact E|]. cbn [firstn Rsum fold_right] in Hb.
    rewrite op_prob_meas in * by lia. change (N.eqb 0 1) with false in *.
    split; [split; [intros _; lra|auto]|]. split; [destruct Hu; lra|]. split; [exact Hnorm|].
    intros i Hi. rewrite Hval by auto. rewrite op_apply_meas by lia. change (N.eqb 0 1) with false.
    destruct (Bool.eqb _ _); [reflexivity|]. ceq; ring.
  - exists true, v'. split; [exact E|].
    cbn [firstn meas_ops Rsum fold_right] in Hb.
    rewrite !op_prob_meas in Hb by lia. rewrite op_prob_meas in Hval by lia.
    change (N.eqb 0 1) with false in *. change (N.eqb 1 1) with true in *.
    split; [split; [discriminate|intros H; lra]|]. split; [lra|]. split; [exact Hnorm|].
    intros i Hi. rewrite Hval by auto. rewrite op_apply_meas by lia. change (N.eqb 1 1) with true.
    destruct (Bool.eqb _ _); [reflexivity|]. ceq; ring.
Qed.

(** Measuring the same qubit again gives the same outcome and leaves the state alone. *)
Theorem measurement_repeat le n q u u' (v : N -> C) k w v' :
  (n <= 30)%N -> (q < n)%N -> normalised n v -> uniform u -> uniform u' ->
  sample_qubit_C le n q u true v = Ok (k, w, v') ->
  exists v'', sample_qubit_C le n q u' true v' = Ok (k, false, v'') /\
    forall i, (i < 2 ^ n)%N -> v'' i = v' i.
Proof.
  intros Hn Hq Hv Hu Hu' E.
  destruct (measurement_correct le n q u v Hn Hq Hv Hu) as (o & v1 & E1 & _ & Hpos & Hnorm & Hval).
  assert (k = (if o then 1%nat else 0%nat) /\ w = false /\ v' = v1) as (-> & -> & ->) by (rewrite E1 in E; inversion E; auto).
  destruct (measurement_correct le n q u' v1 Hn Hq Hnorm Hu') as (o' & v2 & E2 & Ho' & Hpos' & _ & Hval2).
  assert (Hz : prob le n q (negb o) v1 = 0).
  { unfold prob.
    assert (H : forall l, (forall i, In i l -> (i < 2 ^ n)%N) ->
       Rsum (filter (fun i => Bool.eqb (qbit le n i q) (negb o)) l) (fun i => Cnorm2 (v1 i)) = 0).
    { induction l as [|i l IH]; intros Hl; [reflexivity|]. cbn [filter].
      specialize (IH (fun j Hj => Hl j (or_intror Hj))).
      destruct (Bool.eqb (qbit le n i q) (negb o)) eqn:Eb; [|exact IH].
      cbn [Rsum fold_right]. fold (Rsum (filter (fun i => Bool.eqb (qbit le n i q) (negb o)) l) (fun i => Cnorm2 (v1 i))).
      rewrite IH, Hval by (apply Hl; now left).
      apply Bool.eqb_prop in Eb. rewrite Eb. rewrite Bool.eqb_negb1 || destruct o; simpl;
      unfold Cnorm2, C0, Re, Im; cbn [fst snd]; ring. }
    apply H. intros i Hi. now apply In_Nrange in Hi. }
  pose proof (prob_split le n q v1) as Hs. unfold normalised in Hnorm. fold (Rnorm2 n v1) in Hnorm.
  assert (Hone : prob le n q o v1 = 1) by (destruct o; simpl in Hz; lra).
  assert (o' = o).
  { destruct o, o'; auto; simpl in Hz; lra. }
  subst o'. exists v2. split; [exact E2|]. intros i Hi. rewrite Hval2 by auto. rewrite Hone.
  rewrite sqrt_1.
  destruct (Bool.eqb (qbit le n i q) o) eqn:Eb.
  - ceq; field.
  - rewrite Hval by auto. now rewrite Eb.
Qed.

(** ** Circuits with measurements *)
Section Run.
Variable rnd : nat -> R.
Hypothesis Hrnd : forall k, uniform (rnd k).
Notation mem := (mem Ccring).

Lemma measure_loop_ok n mid bits ts : (n <= 30)%N -> (forall t, In t ts -> (t < n)%N) ->
  forall idx (m : mem) v, normalised n v ->
  exists m' v', measure_loop Ccring R Cgtb Cis0 Cinvsqrt rnd n mid bits idx ts m v = (m', Ok v') /\ normalised n v'.
Proof.
  intros Hn. induction ts as [|t ts IH]; intros Hl idx m v Hv; [exists m, v; auto|].
  cbn [measure_loop].
  destruct (measurement_correct false n t (rnd (m_pos Ccring m)) v Hn (Hl t (or_introl eq_refl)) Hv (Hrnd _))
    as (o & v' & E & _ & _ & Hv' & _). fold sample_qubit_C. rewrite E.
  apply IH; [intros x Hx; apply Hl; now right|exact Hv'].
Qed.

Lemma gate_normalised le n k ts (v v' : N -> C) : good_kind Ccring k ts -> good_targets n ts -> unitary_kind k ->
  (forall i, (i < 2 ^ n)%N -> v' i = gate_action le n k ts v i) -> normalised n v -> normalised n v'.
Proof.
  intros Hk Hg Hu H Hv. unfold normalised in *. fold (Rnorm2 n v) in Hv. fold (Rnorm2 n v').
  apply RtoC_inj. rewrite <- inner_real. rewrite (inner_ext Ccring n v' _ v' _ H H).
  rewrite gate_action_inner by auto. rewrite inner_real. now rewrite Hv.
Qed.

Lemma run_pure_norm c le ops : (num_qubits Ccring c <= 30)%N -> NoDup (sc_qubits Ccring c) ->
  (forall o, In o ops -> wf_op c o /\ unitary_kind (so_kind Ccring o) /\
     (le = true -> is_measure (so_kind Ccring o) = false)) ->
  forall (m : mem) v, normalised (num_qubits Ccring c) v ->
  exists m' w, run_pure_C rnd c le ops m v = (m', Ok w) /\ normalised (num_qubits Ccring c) w.
Proof.
  intros Hn Hnd. induction ops as [|o ops IH]; intros Hops m v Hv; [exists m, v; auto|].
  assert (Hops' : forall x, In x ops -> wf_op c x /\ unitary_kind (so_kind Ccring x) /\
     (le = true -> is_measure (so_kind Ccring x) = false)) by (intros x Hx; apply Hops; now right).
  destruct (Hops o (or_introl eq_refl)) as (Hw & Hu & Hm).
  destruct (placed_wf Ccring c o Hw) as (ts & E & Hp & Hl & Hnd' & Ha).
  unfold run_pure_C in *. cbn [run_pure]. rewrite E.
  destruct (is_blocked Ccring m o) eqn:Eb.
  { unfold apply_instruction. rewrite Eb. now apply IH. }
  destruct (is_measure (so_kind Ccring o)) eqn:Em.
  - unfold apply_instruction. rewrite Eb. destruct (so_kind Ccring o) as [mid bits| | | | |]; try discriminate.
    destruct le; [specialize (Hm eq_refl); discriminate|].
    unfold measure.
    destruct (measure_loop_ok (num_qubits Ccring c) mid bits ts Hn Hl 0 (set_mstate Ccring mid v m) v Hv)
      as (m' & v' & E' & Hv'). rewrite E'. now apply IH.
  - assert (Hs : supported (so_kind Ccring o)) by (destruct Hw as (? & _ & _ & _ & _ & ?); assumption).
    destruct (apply_gate Ccring R Cgtb Cis0 Cinvsqrt rnd (num_qubits Ccring c) le false o ts m v Hn Eb Em Hs Ha)
      as (v' & Ev & Hv'). { split; [now apply Hnd'|exact Hl]. }
    rewrite Ev. apply IH; auto.
    apply (gate_normalised le (num_qubits Ccring c) (so_kind Ccring o) ts v v'); auto.
    + repeat split; auto.
    + split; auto.
    + intros i Hi. rewrite Hv' by auto. destruct (so_kind Ccring o); reflexivity.
Qed.

Lemma zero_normalised n : normalised n (zero_state Ccring).
Proof.
  apply RtoC_inj. change (RtoC (Rnorm2 n (zero_state Ccring)) = RtoC 1).
  rewrite <- (norm2_real n (zero_state Ccring)). unfold norm2.
  rewrite (sumf_single Ccring _ _ 0%N).
  - rewrite rnorm_C. unfold zero_state. simpl. ceq; ring.
  - apply NoDup_Nrange.
  - apply In_Nrange. apply N.neq_0_lt_0. apply N.pow_nonzero. lia.
  - intros j _ Hj. unfold zero_state. destruct (N.eqb_spec j 0); [contradiction|].
    rewrite rnorm_C. simpl. ceq; ring.
Qed.

Theorem simulate_normalised c le (m : mem) : wf_circ c -> unitary_circ c -> (num_qubits Ccring c <= 30)%N ->
  (le = true -> measurement_free c) ->
  exists m' w, simulate_C rnd c false le m = (m', Ok (SVec Ccring w)) /\ normalised (num_qubits Ccring c) w.
Proof.
  intros (Hnd & Hne & Hw) Hu Hn Hm. unfold simulate_C, simulate.
  destruct (run_pure_norm c le (sc_ops Ccring c) Hn Hnd) with (m := m) (v := zero_state Ccring) as (m' & w & E & H).
  - intros o Ho. split; [auto|]. split; [now apply Hu|]. intros El. now apply (Hm El).
  - apply zero_normalised.
  - exists m', w. destruct (sc_qubits Ccring c); [congruence|]. unfold run_pure_C in E. rewrite E. auto.
Qed.
End Run.

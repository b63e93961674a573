(** Decompositions of gates act as the gate. *)
From Coq Require Import List ZArith NArith Bool Lia Reals.
From Verif Require Import Py CRing Cplx KernelModel KernelSpec KernelBits KernelProofs KernelProofs2 SimModel SimSpec
  SimProofs SimProofs2 UnitaryModel UnitarySpec UnitaryProofs2 GateModel GateProofs.
Import ListNotations.
Local Open Scope N_scope.

Definition cact (le : bool) (n : N) (g : gate) (ts : list N) (v : N -> C) : N -> C :=
  @gate_action Ccring le n (gate_kind g) ts v.

(** The steps of a decomposition, first to last, on the qubits picked from [ts]. *)
Fixpoint act_steps (le : bool) (n : N) (steps : list (gate * list nat)) (ts : list N) (v : N -> C) : N -> C :=
  match steps with
  | [] => v
  | (g, ops) :: rest => act_steps le n rest ts (cact le n g (map (fun k => nth k ts 0) ops) v)
  end.

Lemma matmul_zhxh i j : i < 2 -> j < 2 ->
  matmul Ccring 2 (matrix1 GHadamard) (matmul Ccring 2 (matrix1 GX) (matrix1 GHadamard)) i j = matrix1 GZ i j.
Proof.
  intros Hi Hj. assert (Hh : (sqrt 2 / 2 * (sqrt 2 / 2) = 1 / 2)%R) by exact half2.
  destruct (two_cases i Hi) as [-> | ->], (two_cases j Hj) as [-> | ->];
  unfold matmul; cbn [matrix1]; unfold Cscale, lit; simpl; ceq;
  remember (sqrt 2 / 2)%R as h; ring_simplify; 
  try replace (h ^ 2)%R with (1 / 2)%R by (rewrite <- Hh; ring); try field.
Qed.

Lemma matmul_rot b g d i j : i < 2 -> j < 2 ->
  matmul Ccring 2 (matrix1 (GRZ d)) (matmul Ccring 2 (matrix1 (GRY g)) (matrix1 (GRZ b))) i j
  = matrix1 (GRotation b g d) i j.
Proof.
  intros Hi Hj.
  assert (E1 : (- (1 / 2) * (b + d) = - d / 2 + - b / 2)%R) by field.
  assert (E2 : (1 / 2 * (b - d) = - d / 2 + b / 2)%R) by field.
  assert (E3 : (- (1 / 2) * (b - d) = d / 2 + - b / 2)%R) by field.
  assert (E4 : (1 / 2 * (b + d) = d / 2 + b / 2)%R) by field.
  destruct (two_cases i Hi) as [-> | ->], (two_cases j Hj) as [-> | ->];
  unfold matmul, matrix1; rewrite ?E1, ?E2, ?E3, ?E4; csimp; rewrite ?cos_plus, ?sin_plus; f_equal; ring.
Qed.

Lemma op_apply_mat le n (G G' : N -> N -> C) ts cs v i :
  (forall s t, s < 2 ^ N.of_nat (length ts) -> t < 2 ^ N.of_nat (length ts) -> G s t = G' s t) ->
  @op_apply Ccring le n G ts cs v i = @op_apply Ccring le n G' ts cs v i.
Proof.
  intros H. unfold op_apply. destruct (forallb _ cs); [|reflexivity].
  apply sumf_ext. intros s Hs. apply In_Nrange in Hs. rewrite H; auto. exact (read_lt (mkParams le n ts cs) ts i).
Qed.

Lemma op_apply_vec le n G ts cs (v w : N -> C) i : (forall q, In q ts -> q < n) -> i < 2 ^ n ->
  (forall j, j < 2 ^ n -> v j = w j) ->
  @op_apply Ccring le n G ts cs v i = @op_apply Ccring le n G ts cs w i.
Proof. intros. now apply op_apply_ext. Qed.

Lemma three le n t (A B D : N -> N -> C) v i : t < n -> i < 2 ^ n ->
  @op_apply Ccring le n A [t] [] (@op_apply Ccring le n B [t] [] (@op_apply Ccring le n D [t] [] v)) i
  = @op_apply Ccring le n (matmul Ccring 2 A (matmul Ccring 2 B D)) [t] [] v i.
Proof.
  intros Ht Hi.
  assert (Hlt : forall q, In q ([t] ++ []) -> q < n) by (intros q [<-|[]]; exact Ht).
  assert (Hnd : NoDup ([t] ++ [])) by (repeat constructor; auto).
  rewrite (op_apply_vec le n A [t] [] _ (@op_apply Ccring le n (matmul Ccring 2 B D) [t] [] v)).
  - now rewrite (op_apply_comp Ccring le n [t] [] A _ v i Hlt Hnd Hi).
  - intros q [<-|[]]; exact Ht.
  - exact Hi.
  - intros j Hj. now rewrite (op_apply_comp Ccring le n [t] [] B D v j Hlt Hnd Hj).
Qed.

Lemma cact_cx le n c t v i : cact le n (GC GX) [c; t] v i
  = if qbit le n i c then v (flip le n i t) else v i.
Proof.
  unfold cact. cbn [gate_kind gate_action].
  rewrite (op_apply_mat le n (matrix1 GX) (x_matrix Ccring)).
  - rewrite op_apply_x. simpl. now rewrite andb_true_r.
  - intros s u Hs Hu. destruct (two_cases s Hs) as [-> | ->], (two_cases u Hu) as [-> | ->]; reflexivity.
Qed.

Lemma flip_testbit le n i t j : N.testbit (flip le n i t) j = xorb (j =? bitpos le n t) (N.testbit i j).
Proof.
  unfold flip. rewrite qset_testbit. destruct (N.eqb_spec j (bitpos le n t)) as [->|H].
  - unfold qbit. now destruct (N.testbit i _).
  - now destruct (N.testbit i j).
Qed.

Lemma qbit_flip le n i t q : t < n -> q < n ->
  qbit le n (flip le n i t) q = xorb (q =? t) (qbit le n i q).
Proof.
  intros Ht Hq. unfold qbit at 1. rewrite flip_testbit. unfold qbit. f_equal.
  destruct (N.eqb_spec q t) as [->|H]; [apply N.eqb_refl|].
  apply N.eqb_neq. intros E. apply H. exact (bitpos_inj le n q t Hq Ht E).
Qed.

Lemma flip_flip le n i t : flip le n (flip le n i t) t = i.
Proof.
  apply N.bits_inj. intros j. rewrite !flip_testbit. now destruct (j =? _), (N.testbit i j).
Qed.

Lemma exchange_flips le n i a b : a < n -> b < n -> a <> b ->
  exchange le n i a b = if xorb (qbit le n i a) (qbit le n i b) then flip le n (flip le n i a) b else i.
Proof.
  intros Ha Hb Hab.
  assert (Hp : bitpos le n a <> bitpos le n b) by (intros E; apply Hab; exact (bitpos_inj le n a b Ha Hb E)).
  apply N.bits_inj. intros j. unfold exchange. rewrite !qset_testbit.
  destruct (xorb (qbit le n i a) (qbit le n i b)) eqn:E; rewrite ?flip_testbit; unfold qbit in *;
  destruct (N.eqb_spec j (bitpos le n b)) as [E1|E1]; destruct (N.eqb_spec j (bitpos le n a)) as [E2|E2];
  subst; try congruence; destruct (N.testbit i (bitpos le n a)), (N.testbit i (bitpos le n b)); try discriminate;
  try reflexivity; now destruct (N.testbit i j).
Qed.

Lemma swap_steps le n a b v i : a < n -> b < n -> a <> b ->
  cact le n (GC GX) [b; a] (cact le n (GC GX) [a; b] (cact le n (GC GX) [b; a] v)) i = v (exchange le n i a b).
Proof.
  intros Ha Hb Hab. rewrite exchange_flips by auto. rewrite !cact_cx.
  assert (Eab : (a =? b) = false) by now apply N.eqb_neq.
  assert (Eba : (b =? a) = false) by (apply N.eqb_neq; auto).
  destruct (qbit le n i b) eqn:Qb, (qbit le n i a) eqn:Qa; cbn [xorb];
  repeat (rewrite ?cact_cx, ?qbit_flip, ?Qa, ?Qb, ?N.eqb_refl, ?Eab, ?Eba, ?flip_flip by auto; cbn [xorb negb]);
  try reflexivity.
  - f_equal. apply N.bits_inj. intros j. rewrite !flip_testbit.
    destruct (j =? bitpos le n a), (j =? bitpos le n b), (N.testbit i j); reflexivity.
Qed.

Lemma cswap_steps le n c a b v i : a < n -> b < n -> c < n -> a <> b -> c <> a -> c <> b ->
  cact le n (GC GX) [b; a] (cact le n GCCX [c; a; b] (cact le n (GC GX) [b; a] v)) i
  = if qbit le n i c then v (exchange le n i a b) else v i.
Proof.
  intros Ha Hb Hc Hab Hca Hcb. rewrite exchange_flips by auto. rewrite !cact_cx.
  change (fun v i => cact le n GCCX [c; a; b] v i)
    with (fun (v : N -> C) i => if qbit le n i c && qbit le n i a then v (flip le n i b) else v i).
  assert (Eab : (a =? b) = false) by now apply N.eqb_neq.
  assert (Eba : (b =? a) = false) by (apply N.eqb_neq; auto).
  assert (Eca : (c =? a) = false) by now apply N.eqb_neq.
  assert (Ecb : (c =? b) = false) by now apply N.eqb_neq.
  assert (X : forall w k, cact le n GCCX [c; a; b] w k = if qbit le n k c && qbit le n k a then w (flip le n k b) else w k)
    by reflexivity.
  destruct (qbit le n i c) eqn:Qc, (qbit le n i b) eqn:Qb, (qbit le n i a) eqn:Qa; cbn [xorb];
  repeat (rewrite ?X, ?cact_cx, ?qbit_flip, ?Qa, ?Qb, ?Qc, ?N.eqb_refl, ?Eab, ?Eba, ?Eca, ?Ecb, ?flip_flip by auto; cbn [xorb negb andb]);
  try reflexivity.
  f_equal. apply N.bits_inj. intros j. rewrite !flip_testbit.
  destruct (j =? bitpos le n a), (j =? bitpos le n b), (N.testbit i j); reflexivity.
Qed.

Theorem decomposition_correct g steps : decomposition g = Some steps ->
  forall le n ts v i, length ts = N.to_nat (qubits_of g) -> good_targets n ts -> i < 2 ^ n ->
  act_steps le n steps ts v i = cact le n g ts v i.
Proof.
  intros Hd le n ts v i Hl [Hnd Hlt] Hi.
  destruct g as [g|g| | |]; try discriminate Hd.
  - destruct ts as [|t [|? ?]]; try discriminate Hl. assert (Ht : t < n) by (apply Hlt; now left).
    destruct g; try discriminate Hd; injection Hd as <-.
    + cbn [act_steps map nth]. unfold cact. cbn [gate_kind gate_action]. rewrite three by auto.
      apply op_apply_mat. intros s u Hs Hu. now apply matmul_zhxh.
    + cbn [act_steps map nth]. unfold cact. cbn [gate_kind gate_action]. rewrite three by auto.
      apply op_apply_mat. intros s u Hs Hu. now apply matmul_rot.
  - injection Hd as <-. destruct ts as [|a [|b [|? ?]]]; try discriminate Hl.
    cbn [act_steps map nth]. rewrite swap_steps; [reflexivity|..].
    + apply Hlt; now left.
    + apply Hlt; simpl; auto.
    + intros ->. inversion Hnd as [|? ? Hn _]. apply Hn. now left.
  - injection Hd as <-. destruct ts as [|c [|a [|b [|? ?]]]]; try discriminate Hl.
    cbn [act_steps map nth].
    inversion Hnd as [|x l Hn Hnd']; subst. inversion Hnd' as [|x l Hn' _]; subst.
    rewrite cswap_steps; [reflexivity|..]; try (apply Hlt; simpl; auto).
    + intros ->. apply Hn'. now left.
    + intros ->. apply Hn. now left.
    + intros ->. apply Hn. simpl; auto.
Qed.

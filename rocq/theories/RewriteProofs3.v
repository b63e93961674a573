(** The table of identities. *)
From Coq Require Import List NArith Arith Bool Lia Reals Lra.
From Verif Require Import Py CRing Cplx KernelModel KernelSpec KernelBits KernelProofs KernelProofs2 SimModel SimSpec SimReal SimProofs SimProofs2 SimProofs3 
  UnitaryModel UnitarySpec CallSpec CallProofs CallProofs2 CallProofs3 GateModel GateProofs GateProofs2 RewriteSpec RewriteProofs RewriteProofs2.
Import ListNotations.
Local Open Scope N_scope.

Definition alike_steps (k : nat) (A B : list (gate * list nat)) (z : C) : Prop :=
  forall n ts v i, length ts = k -> good_targets n ts -> i < 2 ^ n -> act_steps false n B ts v i = Cmul z (act_steps false n A ts v i).

Lemma Cone z : Cmul C1 z = z.
Proof. ceq; ring. Qed.
Lemma ones l l' z : agree l l' z -> alike_steps 1 (map one l) (map one l') z.
Proof.
  intros H n ts v i Hl (_ & Hlt) Hi. destruct ts as [|t [|? ?]]; try discriminate Hl. assert (Ht : t < n) by (apply Hlt; now left).
  rewrite !ones_act by auto. now apply op_apply_phase.
Qed.
Lemma twos l l' : agree l l' C1 -> alike_steps 2 (map two l) (map two l') C1.
Proof.
  intros H n ts v i Hl (Hnd & Hlt) Hi. destruct ts as [|a [|t [|? ?]]]; try discriminate Hl.
  assert (Ha : a < n) by (apply Hlt; now left). assert (Ht : t < n) by (apply Hlt; right; now left).
  assert (a <> t) by (intros ->; inversion Hnd as [|? ? X]; apply X; now left).
  rewrite !twos_act by auto. rewrite Cone. apply op_apply_mat. intros s u Hs Hu. rewrite (H s u Hs Hu). apply Cone.
Qed.

(** ** Matrices *)
Lemma root2 : (sqrt 2 * sqrt 2 = 2)%R.
Proof. apply sqrt_sqrt. lra. Qed.
Lemma agree_twice g : In g [GX; GY; GZ; GHadamard] -> agree [g; g] [] C1.
Proof.
  intros [<-|[<-|[<-|[<-|[]]]]]; entries; try ring; pose proof half2; lra.
Qed.
Lemma agree_none : agree [GIdentity] [] C1.
Proof. entries; ring. Qed.
Lemma agree_ss : agree [GS; GS] [GZ] C1.
Proof. entries; ring. Qed.
Lemma eighth : exists x, (1 / sqrt 2 = x /\ x * x = / 2)%R.
Proof. eexists. split; [reflexivity|]. pose proof root2. assert (sqrt 2 <> 0)%R by (apply Rgt_not_eq, Rlt_sqrt2_0). replace (1 / sqrt 2 * (1 / sqrt 2))%R with (/ (sqrt 2 * sqrt 2))%R by (field; auto). now rewrite H. Qed.
Lemma agree_tt : agree [GT; GT] [GS] C1.
Proof.
  destruct eighth as (x & E & Q).
  entries; rewrite ?cos_PI4, ?sin_PI4, ?E; try ring; lra.
Qed.
Lemma half_sum a b : ((a + b) / 2 = a / 2 + b / 2)%R.
Proof. field. Qed.
Lemma half_neg_sum a b : (- (a + b) / 2 = - a / 2 + - b / 2)%R.
Proof. field. Qed.
Lemma agree_rx a b : agree [GRX a; GRX b] [GRX (a + b)] C1.
Proof. entries; rewrite ?half_sum, ?cos_plus, ?sin_plus; ring. Qed.
Lemma agree_ry a b : agree [GRY a; GRY b] [GRY (a + b)] C1.
Proof. entries; rewrite ?half_sum, ?cos_plus, ?sin_plus; ring. Qed.
Lemma agree_rz a b : agree [GRZ a; GRZ b] [GRZ (a + b)] C1.
Proof. entries; rewrite ?half_neg_sum, ?half_sum, ?cos_plus, ?sin_plus; ring. Qed.
Lemma product_three a b c r s : r < 2 -> s < 2 -> product [a; b; c] r s =
  Cadd (Cmul (Cadd (Cmul (matrix1 c r 0) (matrix1 b 0 0)) (Cmul (matrix1 c r 1) (matrix1 b 1 0))) (matrix1 a 0 s))
       (Cmul (Cadd (Cmul (matrix1 c r 0) (matrix1 b 0 1)) (Cmul (matrix1 c r 1) (matrix1 b 1 1))) (matrix1 a 1 s)).
Proof.
  intros Hr Hs. cbn [product]. unfold matmul. change (Nrange 2) with [0; 1]. cbn [sumf fold_right]. cbn [radd rmul r0 Ccring].
  generalize (matrix1 a) (matrix1 b) (matrix1 c). intros A B D.
  destruct (two_cases r Hr) as [->| ->]; unfold matrix1, lit; cbn [N.to_nat Pos.to_nat Pos.iter_op Nat.add nth]; ceq; ring.
Qed.
Lemma product_one a r s : r < 2 -> s < 2 -> product [a] r s = matrix1 a r s.
Proof.
  intros Hr Hs. cbn [product]. unfold matmul. change (Nrange 2) with [0; 1]. cbn [sumf fold_right]. cbn [radd rmul r0 Ccring].
  generalize (matrix1 a). intros A. destruct (two_cases r Hr) as [->| ->]; unfold matrix1, lit; cbn [N.to_nat Pos.to_nat Pos.iter_op Nat.add nth]; ceq; ring.
Qed.
Lemma had00 : matrix1 GHadamard 0 0 = RtoC (sqrt 2 / 2) /\ matrix1 GHadamard 0 1 = RtoC (sqrt 2 / 2) /\ matrix1 GHadamard 1 0 = RtoC (sqrt 2 / 2) /\ matrix1 GHadamard 1 1 = RtoC (- (sqrt 2 / 2)).
Proof. unfold matrix1, Cscale, lit; cbn [N.to_nat Pos.to_nat Pos.iter_op Nat.add nth]. repeat split; ceq; ring. Qed.
Lemma agree_hzh : agree [GHadamard; GZ; GHadamard] [GX] C1.
Proof.
  intros r s Hr Hs. rewrite product_three, product_one by auto. destruct had00 as (A & B & D & E). pose proof half2 as Q.
  destruct (two_cases r Hr) as [->| ->], (two_cases s Hs) as [->| ->]; rewrite ?A, ?B, ?D, ?E; revert Q; generalize (sqrt 2 / 2)%R; intros h Q;
    unfold matrix1, lit; cbn [N.to_nat Pos.to_nat Pos.iter_op Nat.add nth]; ceq; lra.
Qed.
Lemma agree_xpi : agree [GRX PI] [GX] Ci.
Proof. entries; rewrite ?cos_PI2, ?sin_PI2; ring. Qed.
Lemma agree_ypi : agree [GRY PI] [GY] Ci.
Proof. entries; rewrite ?cos_PI2, ?sin_PI2; ring. Qed.
Lemma neg_half a : (- a / 2 = - (a / 2))%R.
Proof. field. Qed.
Lemma agree_zpi : agree [GRZ PI] [GZ] Ci.
Proof. entries; rewrite ?neg_half, ?cos_neg, ?sin_neg, ?cos_PI2, ?sin_PI2; ring. Qed.
Lemma agree_s : agree [GRZ (PI / 2)] [GS] (Cexp (PI / 4)).
Proof.
  assert (E1 : (PI / 2 / 2 = PI / 4)%R) by field. assert (E2 : (- (PI / 2) / 2 = - (PI / 4))%R) by field.
  destruct eighth as (x & E & Q).
  entries; rewrite ?E1, ?E2, ?cos_neg, ?sin_neg, ?cos_PI4, ?sin_PI4, ?E; try ring; lra.
Qed.
Lemma agree_t : agree [GRZ (PI / 4)] [GT] (Cexp (PI / 8)).
Proof.
  assert (E1 : (PI / 4 / 2 = PI / 8)%R) by field. assert (E2 : (- (PI / 4) / 2 = - (PI / 8))%R) by field. assert (E3 : (PI / 4 = PI / 8 + PI / 8)%R) by field.
  pose proof (sin2_cos2 (PI / 8)) as Q. unfold Rsqr in Q.
  entries; rewrite ?E1, ?E2, ?cos_neg, ?sin_neg; rewrite ?E3, ?cos_plus, ?sin_plus; try ring; lra.
Qed.
Lemma agree_xy : agree [GX; GY] [GZ] Ci.
Proof. entries; ring. Qed.
Lemma agree_turn a : agree [GX; GRZ a; GX] [GRZ (- a)] C1.
Proof.
  intros r s Hr Hs. rewrite product_three, product_one by auto. assert (E : (- - a / 2 = a / 2)%R) by field.
  destruct (two_cases r Hr) as [->| ->], (two_cases s Hs) as [->| ->]; unfold matrix1, lit, Cexp; cbn [N.to_nat Pos.to_nat Pos.iter_op Nat.add nth]; rewrite ?E; ceq; ring.
Qed.

(** ** The others *)
Lemma twice_steps k g : qubits_of g = N.of_nat k -> (forall ts, length ts = k -> exists G T Cs, kop Ccring (gate_kind g) ts = Some (G, T, Cs) /\
    forall r s, r < 2 ^ N.of_nat (length T) -> s < 2 ^ N.of_nat (length T) -> matmul Ccring (2 ^ N.of_nat (length T)) G G r s = if r =? s then C1 else C0) ->
  forall js, (forall ts : list N, length ts = k -> map (fun j => nth j ts 0) js = ts) -> alike_steps k [(g, js); (g, js)] [] C1.
Proof.
  intros Hq HG js Hjs n ts v i Hl Hg Hi. rewrite Cone. cbn [act_steps]. rewrite (Hjs ts Hl). unfold cact.
  destruct (HG ts Hl) as (G & T & Cs & E & HGG). destruct (kop_targets Ccring _ _ _ _ _ E (proj1 Hg)) as (N1 & I1).
  rewrite (kop_action Ccring false n _ ts G T Cs) by auto.
  assert (LT : forall q, In q (T ++ Cs) -> q < n) by (intros; now apply Hg, I1).
  rewrite (op_apply_vec false n G T Cs (@gate_action Ccring false n (gate_kind g) ts v) (@op_apply Ccring false n G T Cs v)); [|intros; apply LT, in_or_app; now left|exact Hi|intros j _; exact (kop_action Ccring false n _ ts G T Cs v j E Hg)].
  rewrite (op_apply_comp Ccring false n T Cs) by auto. symmetry. apply op_apply_one; auto; [now apply (NoDup_left T Cs)|].
  intros; apply LT, in_or_app; now left.
Qed.
Lemma four_cases i : i < 4 -> i = 0 \/ i = 1 \/ i = 2 \/ i = 3.
Proof. lia. Qed.
Lemma swapM_twice r s : r < 4 -> s < 4 -> matmul Ccring 4 (swapM Ccring) (swapM Ccring) r s = if r =? s then C1 else C0.
Proof.
  intros Hr Hs. destruct (four_cases r Hr) as [->|[->|[->| ->]]], (four_cases s Hs) as [->|[->|[->| ->]]]; unfold matmul; cbn; ceq; ring.
Qed.
Lemma x_twice r s : r < 2 -> s < 2 -> matmul Ccring 2 (x_matrix Ccring) (x_matrix Ccring) r s = if r =? s then C1 else C0.
Proof. intros Hr Hs. destruct (two_cases r Hr) as [->| ->], (two_cases s Hs) as [->| ->]; unfold matmul; cbn; ceq; ring. Qed.

Lemma cz_sym n a t (v : N -> C) i : a < n -> t < n -> @op_apply Ccring false n (matrix1 GZ) [t] [a] v i =
  if qbit false n i a && qbit false n i t then Copp (v i) else v i.
Proof.
  intros Ha Ht. unfold op_apply. cbn [forallb length]. rewrite andb_true_r. destruct (qbit false n i a) eqn:E; [|reflexivity]. cbn [andb].
  change (Nrange (2 ^ N.of_nat 1)) with [0; 1]. cbn [read sumf fold_right].
  assert (W : write false n i [t] (if qbit false n i t then 1 else 0) = i).
  { assert (W0 : write false n i [t] (read false n i [t]) = i) by (apply write_read; [repeat constructor; auto|intros q [<-|[]]; exact Ht]).
    revert W0. cbn [read]. destruct (qbit false n i t); auto. }
  destruct (qbit false n i t); cbn [N.b2n N.add N.mul Pos.add]; rewrite W; unfold matrix1, lit; cbn [N.to_nat Pos.to_nat Pos.iter_op Nat.add nth]; cbn [radd rmul r0 Ccring]; ceq; ring.
Qed.

Theorem identities k A B z : identity k A B z -> steps_ok k A /\ steps_ok k B /\ Cnorm2 z = 1%R /\ alike_steps k A B z.
Proof.
  assert (U1 : Cnorm2 C1 = 1%R) by (unfold Cnorm2, C1, Re, Im; cbn; ring).
  assert (Ui : Cnorm2 Ci = 1%R) by (unfold Cnorm2, Ci, Re, Im; cbn; ring).
  assert (Ue : forall t, Cnorm2 (Cexp t) = 1%R) by (intros t; unfold Cnorm2, Cexp, Re, Im; cbn [fst snd]; pose proof (sin2_cos2 t) as Q; unfold Rsqr in Q; lra).
  assert (S1 : forall l, steps_ok 1 (map one l)). { intros l. apply Forall_forall. intros s Hs. apply in_map_iff in Hs. destruct Hs as (g & <- & _). cbn. repeat constructor; auto. }
  assert (S2 : forall l, steps_ok 2 (map two l)). { intros l. apply Forall_forall. intros s Hs. apply in_map_iff in Hs. destruct Hs as (g & <- & _). cbn. repeat constructor; cbn; auto; lia. }
  assert (J : forall l l' z, Cnorm2 z = 1%R -> agree l l' z -> steps_ok 1 (map one l) /\ steps_ok 1 (map one l') /\ Cnorm2 z = 1%R /\ alike_steps 1 (map one l) (map one l') z) by (intros; auto using ones).
  assert (J2 : forall l l', agree l l' C1 -> steps_ok 2 (map two l) /\ steps_ok 2 (map two l') /\ Cnorm2 C1 = 1%R /\ alike_steps 2 (map two l) (map two l') C1) by (intros; auto using twos).
  intros H. destruct H as [|g Hg|g Hg| | | | | |a b|a b|a b|a b|a b|a b| | | | | | | |a| |g steps Hd].
  - exact (J [GIdentity] [] C1 U1 agree_none).
  - exact (J [g; g] [] C1 U1 (agree_twice g Hg)).
  - exact (J2 [g; g] [] (agree_twice g Hg)).
  - split; [repeat constructor; cbn; auto; lia|]. split; [constructor|]. split; [exact U1|]. apply twice_steps; [reflexivity| |intros [|a [|b [|? ?]]] E; try discriminate E; reflexivity].
    intros [|a [|b [|? ?]]] E; try discriminate E. eexists _, _, _. split; [reflexivity|]. exact swapM_twice.
  - split; [repeat constructor; cbn; auto; lia|]. split; [constructor|]. split; [exact U1|]. apply twice_steps; [reflexivity| |intros [|a [|b [|c [|? ?]]]] E; try discriminate E; reflexivity].
    intros [|a [|b [|c [|? ?]]]] E; try discriminate E. eexists _, _, _. split; [reflexivity|]. exact swapM_twice.
  - split; [repeat constructor; cbn; auto; lia|]. split; [constructor|]. split; [exact U1|]. apply twice_steps; [reflexivity| |intros [|a [|b [|c [|? ?]]]] E; try discriminate E; reflexivity].
    intros [|a [|b [|c [|? ?]]]] E; try discriminate E. eexists _, _, _. split; [reflexivity|]. exact x_twice.
  - exact (J [GS; GS] [GZ] C1 U1 agree_ss).
  - exact (J [GT; GT] [GS] C1 U1 agree_tt).
  - exact (J [GRX a; GRX b] [_] C1 U1 (agree_rx a b)).
  - exact (J [GRY a; GRY b] [_] C1 U1 (agree_ry a b)).
  - exact (J [GRZ a; GRZ b] [_] C1 U1 (agree_rz a b)).
  - exact (J2 [GRX a; GRX b] [_] (agree_rx a b)).
  - exact (J2 [GRY a; GRY b] [_] (agree_ry a b)).
  - exact (J2 [GRZ a; GRZ b] [_] (agree_rz a b)).
  - exact (J [_; _; _] [GX] C1 U1 agree_hzh).
  - exact (J [_] [GX] Ci Ui agree_xpi).
  - exact (J [_] [GY] Ci Ui agree_ypi).
  - exact (J [_] [GZ] Ci Ui agree_zpi).
  - exact (J [_] [GS] _ (Ue _) agree_s).
  - exact (J [_] [GT] _ (Ue _) agree_t).
  - exact (J [_; _] [GZ] Ci Ui agree_xy).
  - exact (J [_; _; _] [_] C1 U1 (agree_turn a)).
  - split; [exact (S2 [GZ])|]. split; [repeat constructor; cbn; auto; lia|]. split; [exact U1|].
    intros n ts v i Hl (Hnd & Hlt) Hi. destruct ts as [|a [|t [|? ?]]]; try discriminate Hl. rewrite Cone. cbn [act_steps map nth two]. unfold cact. cbn [gate_kind gate_action].
    rewrite !cz_sym; try (apply Hlt; cbn; auto). now rewrite andb_comm.
  - assert (X : forall k js, length js = N.to_nat (qubits_of g) -> N.to_nat (qubits_of g) = k -> NoDup js -> Forall (fun j => (j < k)%nat) js -> steps_ok k steps ->
      (forall ts : list N, length ts = k -> map (fun j => nth j ts 0) js = ts) -> steps_ok k [(g, js)] /\ steps_ok k steps /\ Cnorm2 C1 = 1%R /\ alike_steps k [(g, js)] steps C1).
    { intros k js H1 H2 H3 H4 H5 H6. split; [constructor; [auto|constructor]|]. split; [exact H5|]. split; [exact U1|]. intros n ts v i Hl Hgt Hi. rewrite Cone. cbn [act_steps]. rewrite (H6 ts Hl).
      apply (decomposition_correct g steps Hd); auto. now rewrite H2. }
    destruct g as [g|g| | |]; try discriminate Hd; apply X; try reflexivity; try (repeat constructor; cbn; auto; lia).
    + destruct g; try discriminate Hd; injection Hd as <-; repeat constructor; cbn; auto; lia.
    + intros [|a [|? ?]] E; try discriminate E; reflexivity.
    + injection Hd as <-. repeat constructor; cbn; auto; lia.
    + intros [|a [|b [|? ?]]] E; try discriminate E; reflexivity.
    + injection Hd as <-. repeat constructor; cbn; auto; lia.
    + intros [|a [|b [|c [|? ?]]]] E; try discriminate E; reflexivity.
Qed.

Theorem identity_effect c k A B z qs cond : identity k A B z -> NoDup (sc_qubits Ccring c) -> NoDup qs -> length qs = k -> incl qs (sc_qubits Ccring c) ->
  same_effect c (map (on qs cond) A) c (map (on qs cond) B).
Proof.
  intros H Hnd Hqs <- Hin. destruct (identities _ _ _ _ H) as (HA & HB & Hz & Hs).
  assert (exists ts, Forall2 (fun q t => nth_error (sc_qubits Ccring c) (N.to_nat t) = Some q) qs ts) as (ts & Hts).
  { clear -Hin. induction qs as [|q qs IH]; [exists []; constructor|]. destruct IH as (ts & Hts); [intros x Hx; apply Hin; now right|].
    destruct (In_nth_error (sc_qubits Ccring c) q (Hin q (or_introl eq_refl))) as (j & Hj). exists (N.of_nat j :: ts). constructor; [now rewrite Nat2N.id|exact Hts]. }
  apply (effect_intro c c _ _ z); [now apply (steps_fine c qs cond ts)|now apply (steps_fine c qs cond ts)|exact Hz|].
  intros v i Hi. rewrite !(steps_does c Hnd qs cond ts) by auto.
  assert (Hlen : length ts = length qs) by (clear -Hts; induction Hts; cbn; congruence).
  apply Hs; [exact Hlen| |exact Hi]. split.
  - clear -Hts Hqs. induction Hts as [|q t qs ts H F IH]; [constructor|]. inversion Hqs; subst. constructor; [|auto]. intros Ht. apply H2.
    clear -F Ht H. induction F as [|q' t' l l' H' F IH]; [destruct Ht|]. destruct Ht as [->|Ht]; [left; congruence|right; auto].
  - clear -Hts. induction Hts as [|q t qs ts H F IH]; intros x []; [subst|auto]. assert (L : (N.to_nat x < length (sc_qubits Ccring c))%nat) by (apply nth_error_Some; congruence). unfold num_qubits. lia.
Qed.

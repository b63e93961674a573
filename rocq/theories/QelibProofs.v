(** Proofs about OpenQASM gates: the action of a sequence of built-in gates on some qubits of a state, seen from these qubits. *)
From Coq Require Import List String Bool Arith NArith Ascii Reals Lra Lia Ring.
From Verif Require Import CRing Cplx KernelSpec KernelBits KernelProofs2 SimModel SimSpec SimProofs GateModel QasmSpec QelibSpec.
Import ListNotations.
Local Open Scope N_scope.

Add Ring Cring : C_ring.

(** ** Basis indices by the bits of some qubits *)
Fixpoint put (le : bool) (n i : N) (ts : list N) (s : list bool) : N :=
  match ts, s with
  | t :: ts', b :: s' => qset le n (put le n i ts' s') t b
  | _, _ => i
  end.
Fixpoint upd (k : nat) (b : bool) (s : list bool) : list bool :=
  match s, k with
  | [], _ => []
  | _ :: s', O => b :: s'
  | x :: s', S k' => x :: upd k' b s'
  end.
Definition get (s : list bool) (k : nat) : bool := nth k s false.

Section Put.
Variables (le : bool) (n : N).

Lemma qset_qset i q b c : qset le n (qset le n i q b) q c = qset le n i q c.
Proof. apply N.bits_inj. intros p. rewrite !qset_testbit. destruct (p =? bitpos le n q); reflexivity. Qed.
Lemma qset_same i q : qset le n i q (qbit le n i q) = i.
Proof.
  apply N.bits_inj. intros p. rewrite qset_testbit. unfold qbit. destruct (N.eqb_spec p (bitpos le n q)) as [->|]; reflexivity.
Qed.
Lemma qset_comm i q r b c : q < n -> r < n -> q <> r -> qset le n (qset le n i q b) r c = qset le n (qset le n i r c) q b.
Proof.
  intros Hq Hr Hne. apply N.bits_inj. intros p. rewrite !qset_testbit.
  destruct (N.eqb_spec p (bitpos le n r)) as [E1|E1], (N.eqb_spec p (bitpos le n q)) as [E2|E2]; try reflexivity.
  exfalso. apply Hne. apply (bitpos_inj le n); congruence.
Qed.

Lemma qbit_put i ts : forall s k t, NoDup ts -> (forall t, In t ts -> t < n) -> List.length s = List.length ts ->
  nth_error ts k = Some t -> qbit le n (put le n i ts s) t = get s k.
Proof.
  induction ts as [|t0 ts IH]; intros s k t Hd Hl Hs Ht; [destruct k; discriminate|].
  destruct s as [|b s]; [discriminate|]. inversion Hd as [|? ? Hn Hd']; subst. cbn [put]. destruct k as [|k].
  - injection Ht as ->. apply qbit_qset_same.
  - cbn in Ht. assert (Hin : In t ts) by (eapply nth_error_In; eassumption).
    rewrite qbit_qset_other.
    + apply (IH s k t Hd'); [intros; apply Hl; now right|now injection Hs|exact Ht].
    + apply Hl. now left.
    + apply Hl. now right.
    + intros ->. contradiction.
Qed.

Lemma qset_put i ts : forall s k t b, NoDup ts -> (forall t, In t ts -> t < n) -> List.length s = List.length ts ->
  nth_error ts k = Some t -> qset le n (put le n i ts s) t b = put le n i ts (upd k b s).
Proof.
  induction ts as [|t0 ts IH]; intros s k t b Hd Hl Hs Ht; [destruct k; discriminate|].
  destruct s as [|b0 s]; [discriminate|]. inversion Hd as [|? ? Hn Hd']; subst. destruct k as [|k].
  - injection Ht as ->. cbn [put upd]. apply qset_qset.
  - cbn in Ht. cbn [put upd]. assert (Hin : In t ts) by (eapply nth_error_In; eassumption).
    rewrite qset_comm.
    + f_equal. apply IH; [exact Hd'|intros; apply Hl; now right|now injection Hs|exact Ht].
    + apply Hl. now left.
    + apply Hl. now right.
    + intros ->. contradiction.
Qed.

Lemma put_own i ts : put le n i ts (map (qbit le n i) ts) = i.
Proof. induction ts as [|t ts IH]; [reflexivity|]. cbn [put map]. rewrite IH. apply qset_same. Qed.
End Put.

(** ** Steps on the bits of some qubits *)
(** A built-in gate, by places; [U] is written with its three rotations. *)
Inductive step := SU (a b c : R) (k : nat) | SX (j k : nat).
Definition at_places (ts : list N) (p : prim) (s : step) : Prop :=
  match p, s with
  | PU a b c q, SU a' b' c' k => a = a' /\ b = b' /\ c = c' /\ nth_error ts k = Some q
  | PCX c t, SX j k => nth_error ts j = Some c /\ nth_error ts k = Some t /\ j <> k
  | _, _ => False
  end.
Definition local := list bool -> C.
Definition bn (b : bool) : N := N.b2n b.
Definition step_act (s : step) (f : local) : local :=
  match s with
  | SU a b c k => fun x => Cadd (Cmul (umat a b c (bn (get x k)) 0) (f (upd k false x))) (Cmul (umat a b c (bn (get x k)) 1) (f (upd k true x)))
  | SX j k => fun x => if get x j then f (upd k (negb (get x k)) x) else f x
  end.
Definition steps_act (l : list step) (f : local) : local := fold_left (fun f s => step_act s f) l f.

Lemma upd_length k b s : List.length (upd k b s) = List.length s.
Proof. revert k. induction s as [|x s IH]; intros [|k]; cbn; auto. Qed.

Lemma op1 le n (m : N -> N -> C) t v i :
  @op_apply Ccring le n m [t] [] v i =
  Cadd (Cmul (m (bn (qbit le n i t)) 0) (v (qset le n i t false))) (Cmul (m (bn (qbit le n i t)) 1) (v (qset le n i t true))).
Proof.
  unfold op_apply. cbn [forallb]. change (2 ^ N.of_nat (List.length [t])) with 2. change (Nrange 2) with [0; 1].
  cbn [sumf fold_right map KernelSpec.read KernelSpec.write N.div2 N.odd].
  replace (N.b2n (qbit le n i t) + 2 * 0) with (bn (qbit le n i t)) by (unfold bn; lia).
  cbn. ring.
Qed.
Lemma op2 le n (m : N -> N -> C) t c v i :
  @op_apply Ccring le n m [t] [c] v i = if qbit le n i c then @op_apply Ccring le n m [t] [] v i else v i.
Proof. unfold op_apply. cbn [forallb]. now rewrite andb_true_r. Qed.

Lemma step_local le n ts p s v i x : NoDup ts -> (forall t, In t ts -> t < n) -> List.length x = List.length ts -> at_places ts p s ->
  prim_act le n p v (put le n i ts x) = step_act s (fun y => v (put le n i ts y)) x.
Proof.
  intros Hd Hl Hx Hp. destruct p as [a b c q|c t], s as [a' b' c' k|j k]; try destruct Hp.
  - destruct H0 as (-> & -> & Hk). subst a'. cbn [prim_act step_act]. rewrite op1.
    now rewrite (qbit_put le n i ts x k), !(qset_put le n i ts x k) by assumption.
  - destruct H0 as (Hk & Hjk). cbn [prim_act step_act]. rewrite op2, op1.
    rewrite (qbit_put le n i ts x j), (qbit_put le n i ts x k), !(qset_put le n i ts x k) by assumption.
    destruct (get x j); [|reflexivity]. destruct (get x k); cbn; ring.
Qed.

Lemma steps_local le n ts : NoDup ts -> (forall t, In t ts -> t < n) -> forall ps ss, Forall2 (at_places ts) ps ss -> forall v i x,
  List.length x = List.length ts -> run le n ps v (put le n i ts x) = steps_act ss (fun y => v (put le n i ts y)) x.
Proof.
  intros Hd Hl ps ss. unfold run, steps_act.
  assert (E : forall ss f g x, (forall y, List.length y = List.length ts -> f y = g y) -> List.length x = List.length ts ->
              fold_left (fun f s => step_act s f) ss f x = fold_left (fun f s => step_act s f) ss g x).
  { clear. intros ss. induction ss as [|s ss IH]; intros f g x H Hx; cbn; [now apply H|]. apply IH; [|exact Hx].
    intros y Hy. destruct s as [a b c k|j k]; cbn.
    - now rewrite !H by now rewrite upd_length.
    - destruct (get y j); apply H; [now rewrite upd_length|exact Hy]. }
  induction 1 as [|p s ps ss Hp H IH]; intros v i x Hx; [reflexivity|]. cbn [fold_left].
  rewrite IH by exact Hx. apply E; [|exact Hx]. intros y Hy. now apply step_local.
Qed.

(** ** Simpler steps that do the same up to a factor *)
Inductive nice := ND (z : C) (k : nat) | NH (k : nat) | NX (k : nat) | NY (a : R) (k : nat) | NC (j k : nat).
Definition hr : C := RtoC (sqrt 2 / 2).
Definition nice_act (s : nice) (f : local) : local :=
  match s with
  | ND z k => fun x => if get x k then Cmul z (f x) else f x
  | NH k => fun x => Cmul hr (if get x k then Csub (f (upd k false x)) (f (upd k true x)) else Cadd (f (upd k false x)) (f (upd k true x)))
  | NX k => fun x => f (upd k (negb (get x k)) x)
  | NY a k => fun x => if get x k then Cadd (Cmul (RtoC (sin (a / 2))) (f (upd k false x))) (Cmul (RtoC (cos (a / 2))) (f (upd k true x)))
                       else Csub (Cmul (RtoC (cos (a / 2))) (f (upd k false x))) (Cmul (RtoC (sin (a / 2))) (f (upd k true x)))
  | NC j k => fun x => if get x j then f (upd k (negb (get x k)) x) else f x
  end.
Definition nices_act (l : list nice) (f : local) : local := fold_left (fun f s => nice_act s f) l f.

Definition like (m : nat) (ss : list step) (ns : list nice) : Prop :=
  exists z, Cnorm2 z = 1%R /\ forall f x, List.length x = m -> steps_act ss f x = Cmul z (nices_act ns f x).

Lemma Cnorm2_mul a b : Cnorm2 (Cmul a b) = (Cnorm2 a * Cnorm2 b)%R.
Proof. unfold Cnorm2, Cmul, Re, Im. simpl. ring. Qed.
Lemma Cnorm2_exp t : Cnorm2 (Cexp t) = 1%R.
Proof. unfold Cnorm2, Cexp, Re, Im. simpl. pose proof (sin2_cos2 t) as H. unfold Rsqr in H. lra. Qed.

Lemma nice_ext m s f g x : (forall y, List.length y = m -> f y = g y) -> List.length x = m -> nice_act s f x = nice_act s g x.
Proof.
  intros H Hx. destruct s; cbn; repeat match goal with |- context [get x ?k] => destruct (get x k) end;
    rewrite !H by (now rewrite ?upd_length); reflexivity.
Qed.
Lemma nices_ext m ns : forall f g x, (forall y, List.length y = m -> f y = g y) -> List.length x = m -> nices_act ns f x = nices_act ns g x.
Proof.
  unfold nices_act. induction ns as [|s ns IH]; intros f g x H Hx; cbn; [now apply H|]. apply IH; [|exact Hx].
  intros y Hy. now apply (nice_ext m).
Qed.
Lemma nice_scale s z f x : nice_act s (fun y => Cmul z (f y)) x = Cmul z (nice_act s f x).
Proof. destruct s; cbn; repeat match goal with |- context [get x ?k] => destruct (get x k) end; ring. Qed.
Lemma nices_scale m ns : forall z f x, List.length x = m -> nices_act ns (fun y => Cmul z (f y)) x = Cmul z (nices_act ns f x).
Proof.
  induction ns as [|s ns IH]; intros z f x Hx; [reflexivity|]. change (nices_act ns (nice_act s (fun y => Cmul z (f y))) x = Cmul z (nices_act ns (nice_act s f) x)).
  rewrite <- IH by exact Hx. apply (nices_ext m); [|exact Hx]. intros y _. apply nice_scale.
Qed.

Lemma like_app m s1 n1 s2 n2 : like m s1 n1 -> like m s2 n2 -> like m (s1 ++ s2) (n1 ++ n2).
Proof.
  intros (z1 & H1 & E1) (z2 & H2 & E2). exists (Cmul z2 z1). split; [rewrite Cnorm2_mul, H1, H2; ring|].
  intros f x Hx. unfold steps_act, nices_act in *. rewrite !fold_left_app. rewrite E2 by exact Hx.
  transitivity (Cmul z2 (nices_act n2 (fun y => Cmul z1 (nices_act n1 f y)) x)).
  - f_equal. apply (nices_ext m); [|exact Hx]. intros y Hy. now apply E1.
  - rewrite (nices_scale m) by exact Hx. unfold nices_act. ring.
Qed.
Lemma like_nil m : like m [] [].
Proof. exists C1. split; [unfold Cnorm2, C1, Re, Im; simpl; ring|]. intros f x _. cbn. ring. Qed.
Lemma like_cons m s n1 ss ns : like m [s] n1 -> like m ss ns -> like m (s :: ss) (n1 ++ ns).
Proof. intros H1 H2. exact (like_app m [s] n1 ss ns H1 H2). Qed.

Lemma upd_same x : forall k, (k < List.length x)%nat -> upd k (get x k) x = x.
Proof. induction x as [|b x IH]; intros [|k] H; cbn in *; try lia; [reflexivity|]. f_equal. apply IH. lia. Qed.
Lemma get_upd x : forall k b, (k < List.length x)%nat -> get (upd k b x) k = b.
Proof. induction x as [|y x IH]; intros [|k] b H; cbn in *; try lia; [reflexivity|]. apply IH. lia. Qed.
Lemma upd_upd x : forall k b c, upd k b (upd k c x) = upd k b x.
Proof. induction x as [|y x IH]; intros [|k] b c; cbn; try reflexivity. now rewrite IH. Qed.

Lemma Cexp_add a b : Cexp (a + b) = Cmul (Cexp a) (Cexp b).
Proof. unfold Cexp. ceq; [apply cos_plus|rewrite sin_plus; ring]. Qed.

Lemma umat_entries a b c x y : umat a b c (bn x) (bn y) =
  match x, y with
  | false, false => Cscale (cos (a / 2)) (Cexp (- ((b + c) / 2)))
  | false, true => Cscale (- sin (a / 2)) (Cexp (- ((b - c) / 2)))
  | true, false => Cscale (sin (a / 2)) (Cexp ((b - c) / 2))
  | true, true => Cscale (cos (a / 2)) (Cexp ((b + c) / 2))
  end%R.
Proof. destruct x, y; reflexivity. Qed.

(** Any [U] *)
Lemma like_u m k a b c : (k < m)%nat -> like m [SU a b c k] [ND (Cexp c) k; NY a k; ND (Cexp b) k].
Proof.
  intros Hk. exists (Cexp (- ((b + c) / 2))). split; [apply Cnorm2_exp|]. intros f x Hx. subst m. cbn [steps_act nices_act fold_left step_act nice_act].
  change 0 with (bn false). change 1 with (bn true). rewrite !umat_entries. rewrite !get_upd by exact Hk.
  assert (E1 : Cexp ((b - c) / 2) = Cmul (Cexp (- ((b + c) / 2))) (Cexp b)) by (rewrite <- Cexp_add; f_equal; field).
  assert (E2 : Cexp ((b + c) / 2) = Cmul (Cmul (Cexp (- ((b + c) / 2))) (Cexp b)) (Cexp c)) by (rewrite <- !Cexp_add; f_equal; field).
  assert (E3 : Cexp (- ((b - c) / 2)) = Cmul (Cexp (- ((b + c) / 2))) (Cexp c)) by (rewrite <- Cexp_add; f_equal; field).
  unfold Cscale. destruct (get x k).
  - rewrite E1, E2. ring.
  - rewrite E3. replace (RtoC (- sin (a / 2))) with (Copp (RtoC (sin (a / 2)))) by (ceq; ring). ring.
Qed.
Lemma like_cx m j k : like m [SX j k] [NC j k].
Proof. exists C1. split; [unfold Cnorm2, C1, Re, Im; simpl; ring|]. intros f x _. cbn. ring. Qed.

Lemma like_trans m ss ns ns' : like m ss ns -> (exists z, Cnorm2 z = 1%R /\ forall f x, List.length x = m -> nices_act ns f x = Cmul z (nices_act ns' f x)) -> like m ss ns'.
Proof.
  intros (z & Hz & E) (z' & Hz' & E'). exists (Cmul z z'). split; [rewrite Cnorm2_mul, Hz, Hz'; ring|].
  intros f x Hx. rewrite E, E' by exact Hx. ring.
Qed.
Lemma Cnorm2_1 : Cnorm2 C1 = 1%R.
Proof. unfold Cnorm2, C1, Re, Im. simpl. ring. Qed.
(** [U] around one axis *)
Lemma like_d m k a b c t : (k < m)%nat -> a = 0%R -> b = 0%R -> c = t -> like m [SU a b c k] [ND (Cexp t) k].
Proof.
  intros Hk -> -> ->. eapply like_trans; [now apply like_u|]. exists C1. split; [apply Cnorm2_1|]. intros f x Hx. subst m.
  cbn [nices_act fold_left nice_act]. rewrite !get_upd by exact Hk.
  replace (0 / 2)%R with 0%R by field. rewrite sin_0, cos_0. unfold Cexp at 1. rewrite sin_0, cos_0.
  pose proof (upd_same x k Hk) as E. destruct (get x k); rewrite E; ceq; ring.
Qed.
Lemma like_y m k a b c t : (k < m)%nat -> a = t -> b = 0%R -> c = 0%R -> like m [SU a b c k] [NY t k].
Proof.
  intros Hk -> -> ->. eapply like_trans; [now apply like_u|]. exists C1. split; [apply Cnorm2_1|]. intros f x Hx. subst m.
  cbn [nices_act fold_left nice_act]. rewrite !get_upd by exact Hk. unfold Cexp. rewrite sin_0, cos_0.
  destruct (get x k); ceq; ring.
Qed.
Lemma like_h m k a b c : (k < m)%nat -> a = (PI / 2)%R -> b = 0%R -> c = PI -> like m [SU a b c k] [NH k].
Proof.
  intros Hk -> -> ->. eapply like_trans; [now apply like_u|]. exists C1. split; [apply Cnorm2_1|]. intros f x Hx. subst m.
  cbn [nices_act fold_left nice_act]. rewrite !get_upd by exact Hk. unfold Cexp, hr. rewrite sin_0, cos_0, sin_PI, cos_PI.
  replace (PI / 2 / 2)%R with (PI / 4)%R by field. rewrite sin_PI4, cos_PI4.
  assert (E : (1 / sqrt 2 = sqrt 2 / 2)%R).
  { pose proof (sqrt_sqrt 2 ltac:(lra)) as H. pose proof (sqrt_lt_R0 2 ltac:(lra)). field_simplify_eq; [|lra]. simpl. lra. }
  rewrite E. destruct (get x k); ceq; ring.
Qed.
Lemma like_x m k a b c : (k < m)%nat -> a = PI -> b = 0%R -> c = PI -> like m [SU a b c k] [NX k].
Proof.
  intros Hk -> -> ->. eapply like_trans; [now apply like_u|]. exists C1. split; [apply Cnorm2_1|]. intros f x Hx. subst m.
  cbn [nices_act fold_left nice_act]. rewrite !get_upd by exact Hk. unfold Cexp. rewrite sin_0, cos_0, sin_PI, cos_PI, sin_PI2, cos_PI2.
  destruct (get x k); cbn [negb]; ceq; ring.
Qed.

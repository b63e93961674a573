(** Proofs that the gates of qelib1.inc, and the definitions that the writer offers, act as the library's gates. *)
From Coq Require Import List String Bool Arith NArith Ascii Reals Lra Lia Ring.
From Verif Require Import Py CRing Cplx KernelSpec KernelBits KernelProofs2 SimModel SimSpec SimProofs GateModel LinkSpec QasmSpec QelibSpec QelibAlg QelibProofs.
Import ListNotations.
Local Open Scope N_scope.

Add Ring Cring2 : C_ring.

(** ** A library gate on the bits of its qubits *)
Definition mat_local (m : N -> N -> C) (k : nat) (f : local) (x : list bool) : C :=
  Cadd (Cmul (m (bn (get x k)) 0) (f (upd k false x))) (Cmul (m (bn (get x k)) 1) (f (upd k true x))).
Definition gate_local (g : gate) (f : local) (x : list bool) : C :=
  match g with
  | GOne g => mat_local (matrix1 g) 0 f x
  | GC g => if get x 0 then mat_local (matrix1 g) 1 f x else f x
  | GSWAP => f (upd 1 (get x 0) (upd 0 (get x 1) x))
  | GCSWAP => if get x 0 then f (upd 2 (get x 1) (upd 1 (get x 2) x)) else f x
  | GCCX => if (get x 0 && get x 1)%bool then f (upd 2 (negb (get x 2)) x) else f x
  end.
Definition arity (g : gate) : nat := match g with GOne _ => 1 | GC _ | GSWAP => 2 | GCSWAP | GCCX => 3 end.

Lemma gate_at le n g ts v i x : NoDup ts -> (forall t, In t ts -> t < n) -> List.length ts = arity g -> List.length x = List.length ts ->
  @gate_action Ccring le n (gate_kind g) ts v (put le n i ts x) = gate_local g (fun y => v (put le n i ts y)) x.
Proof.
  intros Hd Hl Ha Hx.
  destruct g as [g|g| | |]; cbn [gate_kind gate_local arity] in *.
  - destruct ts as [|t [|? ?]]; try discriminate Ha. cbn [gate_action]. rewrite op1. unfold mat_local.
    now rewrite (qbit_put le n i [t] x 0 t), !(qset_put le n i [t] x 0 t) by auto.
  - destruct ts as [|a [|b [|? ?]]]; try discriminate Ha. cbn [gate_action]. rewrite op2, op1. unfold mat_local.
    now rewrite (qbit_put le n i [a; b] x 0 a), (qbit_put le n i [a; b] x 1 b), !(qset_put le n i [a; b] x 1 b) by auto.
  - destruct ts as [|a [|b [|? ?]]]; try discriminate Ha. cbn [gate_action]. unfold exchange.
    rewrite (qbit_put le n i [a; b] x 0 a), (qbit_put le n i [a; b] x 1 b), (qset_put le n i [a; b] x 0 a), (qset_put le n i [a; b] _ 1 b)
      by (rewrite ?upd_length; auto). reflexivity.
  - destruct ts as [|c [|a [|b [|? ?]]]]; try discriminate Ha. cbn [gate_action]. unfold exchange.
    rewrite (qbit_put le n i [c; a; b] x 0 c), (qbit_put le n i [c; a; b] x 1 a), (qbit_put le n i [c; a; b] x 2 b),
      (qset_put le n i [c; a; b] x 1 a), (qset_put le n i [c; a; b] _ 2 b) by (rewrite ?upd_length; auto). reflexivity.
  - destruct ts as [|c [|a [|b [|? ?]]]]; try discriminate Ha. cbn [gate_action]. unfold flip.
    rewrite (qbit_put le n i [c; a; b] x 0 c), (qbit_put le n i [c; a; b] x 1 a), (qbit_put le n i [c; a; b] x 2 b),
      (qset_put le n i [c; a; b] x 2 b) by (rewrite ?upd_length; auto). reflexivity.
Qed.

(** ** From steps to gates *)
Lemma acts le n g ts prims ss ns z : NoDup ts -> (forall t, In t ts -> t < n) -> List.length ts = arity g ->
  Forall2 (at_places ts) prims ss -> like (arity g) ss ns -> Cnorm2 z = 1%R ->
  (forall f x, List.length x = arity g -> nices_act ns f x = Cmul z (gate_local g f x)) ->
  up_to_phase n (run le n prims) (@gate_action Ccring le n (gate_kind g) ts).
Proof.
  intros Hd Hl Ha Hp (z0 & Hz0 & E0) Hz E. exists (Cmul z0 z). split; [rewrite Cnorm2_mul, Hz0, Hz; ring|].
  intros v i _. rewrite <- (put_own le n i ts) at 1 2.
  rewrite (steps_local le n ts Hd Hl prims ss Hp) by now rewrite map_length.
  rewrite gate_at by (try assumption; now rewrite map_length).
  assert (Hx : List.length (map (qbit le n i) ts) = arity g) by now rewrite map_length.
  rewrite E0, E by exact Hx. ring.
Qed.

Lemma len1 (x : list bool) : List.length x = 1%nat -> exists a, x = [a].
Proof. destruct x as [|a [|]]; try discriminate. now exists a. Qed.
Lemma len2 (x : list bool) : List.length x = 2%nat -> exists a b, x = [a; b].
Proof. destruct x as [|a [|b [|]]]; try discriminate. now exists a, b. Qed.
Lemma len3 (x : list bool) : List.length x = 3%nat -> exists a b c, x = [a; b; c].
Proof. destruct x as [|a [|b [|c [|]]]]; try discriminate. now exists a, b, c. Qed.

(** Numbers that occur *)
Definition rt : R := (sqrt 2 / 2)%R.
Lemma rt2 : (rt * rt = / 2)%R.
Proof. unfold rt. pose proof (sqrt_sqrt 2 ltac:(lra)) as H. lra. Qed.
Lemma exp_pi : Cexp PI = Copp C1.
Proof. unfold Cexp. rewrite sin_PI, cos_PI. ceq; ring. Qed.
Lemma exp_pi2 : Cexp (PI / 2) = Ci.
Proof. unfold Cexp. rewrite sin_PI2, cos_PI2. reflexivity. Qed.
Lemma exp_mpi2 : Cexp (- (PI / 2)) = Copp Ci.
Proof. unfold Cexp. rewrite sin_neg, cos_neg, sin_PI2, cos_PI2. ceq; ring. Qed.
Lemma exp_pi4 : Cexp (PI / 4) = (rt, rt).
Proof.
  unfold Cexp. rewrite sin_PI4, cos_PI4. assert (E : (1 / sqrt 2 = sqrt 2 / 2)%R).
  { pose proof (sqrt_sqrt 2 ltac:(lra)) as H. pose proof (sqrt_lt_R0 2 ltac:(lra)). field_simplify_eq; [|lra]. simpl. lra. }
  rewrite E. reflexivity.
Qed.
Lemma exp_mpi4 : Cexp (- (PI / 4)) = (rt, - rt)%R.
Proof. unfold Cexp. rewrite sin_neg, cos_neg. pose proof exp_pi4 as E. unfold Cexp in E. injection E as -> ->. reflexivity. Qed.

Ltac bits := repeat match goal with b : bool |- _ => destruct b end.
Ltac small Hx :=
  first [destruct (len1 _ Hx) as (? & ->)|destruct (len2 _ Hx) as (? & ? & ->)|destruct (len3 _ Hx) as (? & ? & ? & ->)];
  bits; cbv beta iota zeta delta [nices_act fold_left nice_act gate_local get nth upd negb andb mat_local matrix1 bn N.b2n lit N.to_nat Pos.to_nat Pos.iter_op Nat.add].

Ltac cq := repeat match goal with f : local |- _ => match goal with |- context [f ?l] => destruct (f l) as [? ?] end end; apply C_eq; cbv [Cadd Cmul Copp Csub Cconj RtoC C0 C1 Ci Re Im Cscale fst snd].
(** ** The gates one by one, up to a factor *)
Definition amounts (g : gate) (ns : list nice) : Prop :=
  exists z, Cnorm2 z = 1%R /\ forall f x, List.length x = arity g -> nices_act ns f x = Cmul z (gate_local g f x).

Ltac one := exists C1; split; [apply Cnorm2_1|]; intros f x Hx; small Hx.
Lemma do_id : amounts (GOne GIdentity) [ND (Cexp 0) 0].
Proof. one; unfold Cexp; rewrite ?sin_0, ?cos_0; cq; ring. Qed.
Lemma do_x : amounts (GOne GX) [NX 0].
Proof. one; ring. Qed.
Lemma do_y : amounts (GOne GY) [ND (Cexp (PI / 2)) 0; NY PI 0; ND (Cexp (PI / 2)) 0].
Proof. one; rewrite ?exp_pi2, sin_PI2, cos_PI2; cq; ring. Qed.
Lemma do_z : amounts (GOne GZ) [ND (Cexp PI) 0].
Proof. one; rewrite ?exp_pi; ring. Qed.
Lemma do_h : amounts (GOne GHadamard) [NH 0].
Proof. one; unfold hr, Cscale; ring. Qed.
Lemma do_s : amounts (GOne GS) [ND (Cexp (PI / 2)) 0].
Proof. one; rewrite ?exp_pi2; ring. Qed.
Lemma do_t : amounts (GOne GT) [ND (Cexp (PI / 4)) 0].
Proof. one; ring. Qed.
Lemma do_rx a : amounts (GOne (GRX a)) [ND (Cexp (PI / 2)) 0; NY a 0; ND (Cexp (- (PI / 2))) 0].
Proof. one; rewrite ?exp_pi2, ?exp_mpi2; cq; ring. Qed.
Lemma do_ry a : amounts (GOne (GRY a)) [NY a 0].
Proof. one; ring. Qed.
Lemma do_rz a : amounts (GOne (GRZ a)) [ND (Cexp a) 0].
Proof.
  exists (Cexp (a / 2)). split; [apply Cnorm2_exp|]. intros f x Hx. small Hx.
  - replace a with (a / 2 + a / 2)%R at 1 by field. rewrite Cexp_add. ring.
  - assert (E : Cmul (Cexp (a / 2)) (Cexp (- a / 2)) = C1).
    { rewrite <- Cexp_add. replace (a / 2 + - a / 2)%R with 0%R by field. unfold Cexp. rewrite sin_0, cos_0. reflexivity. }
    transitivity (Cmul (Cmul (Cexp (a / 2)) (Cexp (- a / 2))) (f [false])); [rewrite E; ring|ring].
Qed.
Lemma do_rot a b c : amounts (GOne (GRotation a b c)) [ND (Cexp a) 0; NY b 0; ND (Cexp c) 0].
Proof.
  exists (Cexp (1 / 2 * (a + c))). split; [apply Cnorm2_exp|]. intros f x Hx.
  assert (E0 : Cmul (Cexp (1 / 2 * (a + c))) (Cexp (- (1 / 2) * (a + c))) = C1).
  { rewrite <- Cexp_add. replace (1 / 2 * (a + c) + - (1 / 2) * (a + c))%R with 0%R by field. unfold Cexp. rewrite sin_0, cos_0. reflexivity. }
  assert (E1 : Cmul (Cexp (1 / 2 * (a + c))) (Cexp (1 / 2 * (a - c))) = Cexp a) by (rewrite <- Cexp_add; f_equal; field).
  assert (E2 : Cmul (Cexp (1 / 2 * (a + c))) (Cexp (- (1 / 2) * (a - c))) = Cexp c) by (rewrite <- Cexp_add; f_equal; field).
  assert (E3 : Cmul (Cexp (1 / 2 * (a + c))) (Cexp (1 / 2 * (a + c))) = Cmul (Cexp a) (Cexp c)) by (rewrite <- !Cexp_add; f_equal; field).
  revert E0 E1 E2 E3. small Hx;
  generalize (Cexp (1 / 2 * (a + c))) (Cexp (1 / 2 * (a - c))) (Cexp (- (1 / 2) * (a - c))) (Cexp (- (1 / 2) * (a + c))) (Cexp a) (Cexp c);
  intros u p q r A Cc E0 E1 E2 E3.
  - transitivity (Cadd (Cmul (Cmul (Cmul u q) (RtoC (sin (b / 2)))) (f [false])) (Cmul (Cmul (Cmul u u) (RtoC (cos (b / 2)))) (f [true]))); [rewrite E2, E3; ring|ring].
  - transitivity (Csub (Cmul (Cmul (Cmul u r) (RtoC (cos (b / 2)))) (f [false])) (Cmul (Cmul (Cmul u p) (RtoC (sin (b / 2)))) (f [true]))); [rewrite E0, E1; ring|ring].
Qed.
Lemma do_cx : amounts (GC GX) [NC 0 1].
Proof. one; ring. Qed.
Lemma do_cy : amounts (GC GY) [ND (Cexp (- (PI / 2))) 1; NC 0 1; ND (Cexp (PI / 2)) 1].
Proof. one; rewrite ?exp_pi2, ?exp_mpi2; cq; ring. Qed.
Lemma hh : Cmul hr hr = RtoC (/ 2).
Proof. unfold hr. fold rt. cq; rewrite ?rt2; ring. Qed.
Lemma half z : Cadd (Cmul (RtoC (/ 2)) z) (Cmul (RtoC (/ 2)) z) = z.
Proof. cq; field. Qed.
Lemma do_cz : amounts (GC GZ) [NH 1; NC 0 1; NH 1].
Proof.
  one; unfold hr; fold rt; pose proof rt2 as HR; cq;
  match goal with |- ?l = ?r => replace r with (2 * (rt * rt) * r)%R by (rewrite HR; field) end; ring.
Qed.
(** Polynomials in [rt] *)
Ltac rts := unfold hr; fold rt; cq; pose proof rt2 as HR;
  let H := fresh in assert (H : (2 * rt * rt = 1)%R) by (rewrite Rmult_assoc, HR; field); clear HR; revert H; generalize rt; intros; poly.
Lemma do_ch : amounts (GC GHadamard)
  [NH 1; ND (Cexp (- (PI / 2))) 1; NC 0 1; NH 1; ND (Cexp (PI / 4)) 1; NC 0 1; ND (Cexp (PI / 4)) 1; NH 1; ND (Cexp (PI / 2)) 1; NX 1;
   ND (Cexp (PI / 2)) 0].
Proof.
  exists (Cexp (PI / 4)). split; [apply Cnorm2_exp|]. intros f x Hx. small Hx; rewrite ?exp_pi2, ?exp_mpi2, ?exp_pi4; unfold Cscale; fold rt; rts.
Qed.
Definition ccx_nices : list nice :=
  [NH 2; NC 1 2; ND (Cexp (- (PI / 4))) 2; NC 0 2; ND (Cexp (PI / 4)) 2; NC 1 2; ND (Cexp (- (PI / 4))) 2; NC 0 2; ND (Cexp (PI / 4)) 1;
   ND (Cexp (PI / 4)) 2; NH 2; NC 0 1; ND (Cexp (PI / 4)) 0; ND (Cexp (- (PI / 4))) 1; NC 0 1].
Lemma do_ccx : amounts GCCX ccx_nices.
Proof.
  unfold ccx_nices. one; rewrite ?exp_pi4, ?exp_mpi4; rts.
Qed.

(** Proofs about the parametrised controlled gates and swaps in OpenQASM, and about files of definitions. *)
From Coq Require Import List String Bool Arith NArith Ascii Reals Lra Lia Ring.
From Verif Require Import Py CRing Cplx KernelSpec KernelBits KernelProofs2 SimModel SimSpec SimProofs GateModel LinkSpec QasmSpec QelibSpec QelibAlg QelibProofs QelibProofs2.
Import ListNotations.
Local Open Scope N_scope.

Add Ring Cring3 : C_ring.

Lemma do_crz a : amounts (GC (GRZ a)) [ND (Cexp (a / 2)) 1; NC 0 1; ND (Cexp (- (a / 2))) 1; NC 0 1].
Proof.
  assert (E : Cmul (Cexp (a / 2)) (Cexp (- (a / 2))) = C1).
  { rewrite <- Cexp_add. replace (a / 2 + - (a / 2))%R with 0%R by field. unfold Cexp. rewrite sin_0, cos_0. reflexivity. }
  one.
  - ring.
  - transitivity (Cmul (Cmul (Cexp (a / 2)) (Cexp (- (a / 2)))) (f [false; true])); [ring|rewrite E; ring].
  - replace (- a / 2)%R with (- (a / 2))%R by field. ring.
  - ring.
Qed.

(** Half angles *)
Lemma half_angle a : let c := cos (a / 2 / 2) in let s := sin (a / 2 / 2) in
  (cos (a / 2) = c * c - s * s)%R /\ (sin (a / 2) = 2 * s * c)%R /\ (c * c + s * s = 1)%R /\
  cos (- (a / 2) / 2) = c /\ sin (- (a / 2) / 2) = (- s)%R.
Proof.
  cbv zeta. split; [rewrite <- cos_2a; f_equal; field|]. split; [rewrite <- sin_2a; f_equal; field|].
  split; [pose proof (sin2_cos2 (a / 2 / 2)) as H; unfold Rsqr in H; lra|].
  replace (- (a / 2) / 2)%R with (- (a / 2 / 2))%R by field. split; [apply cos_neg|apply sin_neg].
Qed.
Lemma do_cry a : amounts (GC (GRY a)) [NY (a / 2) 1; NC 0 1; NY (- (a / 2)) 1; NC 0 1].
Proof.
  destruct (half_angle a) as (E1 & E2 & E3 & E4 & E5).
  one; rewrite ?E4, ?E5, ?E1, ?E2; revert E3; generalize (cos (a / 2 / 2)) (sin (a / 2 / 2)); intros c s E3; cq; poly.
Qed.
Lemma do_crx a : amounts (GC (GRX a))
  [ND (Cexp (PI / 2)) 1; NC 0 1; NY (- (a / 2)) 1; NC 0 1; ND (Cexp 0) 1; NY (a / 2) 1; ND (Cexp (- (PI / 2))) 1].
Proof.
  destruct (half_angle a) as (E1 & E2 & E3 & E4 & E5).
  assert (E0 : Cexp 0 = C1) by (unfold Cexp; rewrite sin_0, cos_0; reflexivity).
  one; rewrite ?E0, ?exp_pi2, ?exp_mpi2, ?E4, ?E5, ?E1, ?E2; revert E3; generalize (cos (a / 2 / 2)) (sin (a / 2 / 2)); intros c s E3; cq; poly.
Qed.
Lemma do_swap : amounts GSWAP [NC 0 1; NC 1 0; NC 0 1].
Proof. one; ring. Qed.
Lemma do_swap' : amounts GSWAP [NC 1 0; NC 0 1; NC 1 0].
Proof. one; ring. Qed.

Lemma nices_app a b f x : nices_act (a ++ b) f x = nices_act b (nices_act a f) x.
Proof. unfold nices_act. now rewrite fold_left_app. Qed.
Lemma do_cswap : amounts GCSWAP ([NC 2 1] ++ ccx_nices ++ [NC 2 1]).
Proof.
  destruct do_ccx as (z & Hz & E). exists z. split; [exact Hz|]. intros f x Hx. cbn [arity] in *.
  rewrite !nices_app. cbn [nices_act fold_left nice_act]. fold (nices_act ccx_nices).
  assert (E' : forall f y, List.length y = 3%nat -> nices_act ccx_nices f y = Cmul z (gate_local GCCX f y)) by exact E.
  rewrite !E' by now rewrite ?upd_length.
  destruct (len3 x Hx) as (a & b & c & ->). bits; reflexivity.
Qed.

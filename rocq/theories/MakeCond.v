(** Making an operation conditional, as the simulator sees it: proof for C73. *)
From Coq Require Import List ZArith String Bool Arith Lia Reals.
From Verif Require Import Py Cplx RegisterModel GateModel SimModel WorldModel WorldInv WorldInv2 WorldWf WorldWf2 WorldOps WorldBuild LinkModel.
Import ListNotations.
Local Open Scope nat_scope.

Section Cond.
Variable ptrue : R -> bool.
Variable peqb : R -> R -> bool.
Notation world := (world R).

Definition on_bits (bs : list nat) (s : sop Ccring) : sop Ccring := mkSop Ccring (so_kind Ccring s) (so_qubits Ccring s) bs.
Lemma bit_ids bs : all_some bit_id (map IBit bs) = Some bs.
Proof. induction bs as [|b bs IH]; cbn; [reflexivity|]. now rewrite IH. Qed.
Lemma seen_cond (w : world) o bs y : nth_error (w_op w) o = Some y ->
  forall o' s, seen_op w o' = Some s ->
  seen_op (set_op w (set_nth o (with_ocond y (Some (map IBit bs))) (w_op w))) o' = Some (if Nat.eqb o' o then on_bits bs s else s).
Proof.
  intros E o' s H. unfold seen_op in *. cbn [w_op set_op]. destruct (Nat.eqb_spec o' o) as [->|N].
  - rewrite E in H. rewrite (set_nth_same _ _ _ _ E). change (seen_kind o (with_ocond y (Some (map IBit bs)))) with (seen_kind o y). cbn [o_qubits o_cond with_ocond].
    destruct (seen_kind o y); [|discriminate]. destruct (opt_all qubit_id (o_qubits y)); [|discriminate]. destruct (opt_all bit_id (o_cond y)); [|discriminate].
    injection H as <-. unfold opt_all. now rewrite bit_ids.
  - rewrite set_nth_other by auto. exact H.
Qed.
Theorem condition_seen (v : world) c o bs sc y : seen v c = Some sc -> nth_error (w_op v) o = Some y ->
  exists v' sc' x, do_call ptrue peqb (CCond R o (map IBit bs)) v = (v', Ok tt) /\ seen v' c = Some sc' /\ nth_error (w_circ v) c = Some x /\
    sc_qubits Ccring sc' = sc_qubits Ccring sc /\
    Forall2 (fun p s' => s' = if Nat.eqb (fst p) o then on_bits bs (snd p) else snd p) (combine (c_ops x) (sc_ops Ccring sc)) (sc_ops Ccring sc').
Proof.
  intros H E. unfold seen in H. destruct (nth_error (w_circ v) c) as [x|] eqn:Ec; [|discriminate].
  destruct (snd (qubits c v)) as [r|e] eqn:Eq; [|discriminate]. destruct (items (core r)) as [l|e] eqn:Ei; [|discriminate].
  destruct (all_some qubit_id l) as [qs|] eqn:El; [|discriminate]. destruct (all_some (seen_op v) (c_ops x)) as [os|] eqn:Eo; [|discriminate]. injection H as <-.
  set (v' := set_op v (set_nth o (with_ocond y (Some (map IBit bs))) (w_op v))).
  assert (A : exists os', all_some (seen_op v') (c_ops x) = Some os' /\ Forall2 (fun p s' => s' = if Nat.eqb (fst p) o then on_bits bs (snd p) else snd p) (combine (c_ops x) os) os').
  { revert os Eo. clear - E. induction (c_ops x) as [|a la IH]; intros os Eo; cbn in Eo; [injection Eo as <-; exists []; split; [reflexivity|constructor]|].
    destruct (seen_op v a) as [s|] eqn:Es; [|discriminate]. destruct (all_some (seen_op v) la) as [ss|]; [|discriminate]. injection Eo as <-.
    destruct (IH ss eq_refl) as (os' & I1 & I2). eexists. cbn. rewrite I1. unfold v'. rewrite (seen_cond v o bs y E a s Es).
    split; [reflexivity|]. constructor; [reflexivity|exact I2]. }
  destruct A as (os' & A1 & A2). exists v', (mkScirc Ccring qs os'), x.
  split; [cbn [do_call]; unfold conditional; now rewrite (upd_op_run R o _ v y E)|].
  split.
  - unfold seen. change (w_circ v') with (w_circ v). rewrite Ec. assert (Q : snd (qubits c v') = snd (qubits c v)) by (now apply qubits_frame_op). now rewrite Q, Eq, Ei, El, A1.
  - split; [reflexivity|]. split; [reflexivity|]. exact A2.
Qed.
End Cond.

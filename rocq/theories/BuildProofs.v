(** The theorems about recording, for states that programs reach. *)
From Coq Require Import List ZArith String Bool Arith Lia Sorted.
From Verif Require Import Py RegisterModel WorldModel WorldSpec WorldSpec3 WorldWf3 WorldCtx WorldTrace2.
Import ListNotations.
Local Open Scope nat_scope.

Section BuildProofs.
Variable P : Type.
Variable ptrue : P -> bool.
Variable peqb : P -> P -> bool.
Notation world := (world P).
Notation run := (run ptrue peqb).
Notation reaches := (reaches P ptrue peqb (fun _ _ => True)).
Notation executes := (executes P ptrue peqb).

Theorem reached_order d p (v : world) x : reaches v -> nth_error (w_circ v) d = Some x -> executes (fun _ => no_edit P d) p v ->
  exists x' l, nth_error (w_circ (fst (run p v))) d = Some x' /\ c_ops x' = c_ops x ++ l /\ logs P ptrue peqb d p v l /\
    increasing l (List.length (w_op v)) (List.length (w_op (fst (run p v)))).
Proof. intros R. apply recorded_in_order. eapply WF_reach; eauto. Qed.

Theorem reached_with (v w1 : world) c body x : reaches v -> (let! a := context c in ctx_enter a) v = (w1, Ok tt) -> no_freeze P body ->
  executes (fun _ => no_edit P c) body w1 -> nth_error (w_circ v) c = Some x ->
  exists x' l, nth_error (w_circ (fst (run (With c body) v))) c = Some x' /\ c_ops x' = c_ops x ++ l /\
    collects P ptrue peqb (fun _ => True) body w1 l.
Proof. intros R. apply recorded_by_with; [eapply WF_reach|eapply FL_reach]; eauto. Qed.

Theorem reached_frozen d body (v : world) x a : reaches v -> w_active v = Some a -> no_freeze P body ->
  executes (fun _ => no_edit P d) (Frozen body) v -> nth_error (w_circ v) d = Some x ->
  exists x', nth_error (w_circ (fst (run (Frozen body) v))) d = Some x' /\ c_ops x' = c_ops x.
Proof.
  intros R Ha N He E. pose proof (WF_reach _ _ _ _ _ R) as W. pose proof (wf_act _ _ W a Ha) as L.
  destruct (nth_error (w_ctx v) a) as [[c f]|] eqn:Hc; [|apply nth_error_None in Hc; lia]. eapply recorded_frozen; eauto.
Qed.

Theorem reached_outside d p (v : world) x : reaches v -> w_active v = None -> no_with P p -> nth_error (w_circ v) d = Some x ->
  executes (fun _ => no_edit P d) p v ->
  exists x', nth_error (w_circ (fst (run p v))) d = Some x' /\ c_ops x' = c_ops x.
Proof. intros R. apply recorded_outside. eapply WF_reach; eauto. Qed.

Theorem reached_once (v : world) : WorldSpec.reaches P ptrue peqb (fun _ => no_append P) v ->
  (forall c x, nth_error (w_circ v) c = Some x -> StronglySorted lt (c_ops x)) /\
  (forall c c' x x' o, nth_error (w_circ v) c = Some x -> nth_error (w_circ v) c' = Some x' -> In o (c_ops x) -> In o (c_ops x') -> c = c').
Proof. apply SD_reach. Qed.
End BuildProofs.

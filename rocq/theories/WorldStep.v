(** One more call after a state that a program goes through is again such a state. *)
From Coq Require Import List ZArith String Bool.
From Verif Require Import Py RegisterModel WorldModel WorldSpec.
Import ListNotations.

Section Step.
Variable P : Type.
Variable ptrue : P -> bool.
Variable peqb : P -> P -> bool.
Variable ok : world P -> call P -> Prop.

Lemma visits_step x v p : forall w, visits P ptrue peqb p w v -> exists p',
  visits P ptrue peqb p' w (fst (do_call ptrue peqb x v)) /\ (executes P ptrue peqb ok p w -> ok v x -> executes P ptrue peqb ok p' w).
Proof.
  assert (B : forall p w, v = w \/ v = fst (run ptrue peqb p w) -> exists p', visits P ptrue peqb p' w (fst (do_call ptrue peqb x v)) /\
    (executes P ptrue peqb ok p w -> ok v x -> executes P ptrue peqb ok p' w)).
  { intros q w [->| ->].
    - exists (Do x). split; [right; left; reflexivity|]. cbn. auto.
    - exists (Seq (Try q) (Do x)). split.
      + right. left. reflexivity.
      + cbn. auto. }
  induction p as [|y|p IHp q IHq|c body IH|body IH|body IH|e]; intros w H; cbn [visits] in H; destruct H as [H|[H|H]]; try (now apply (B _ _ (or_introl H))); try (now apply (B _ _ (or_intror H))); try contradiction.
  - destruct H as [H|H].
    + destruct (IHp w H) as (p' & H1 & H2). exists p'. split; [exact H1|]. cbn. intros [E _]. auto.
    + destruct (run ptrue peqb p w) as [w' [r|e]] eqn:E; [|contradiction]. destruct (IHq w' H) as (q' & H1 & H2).
      exists (Seq p q'). cbn [visits executes]. rewrite E. split; [right; right; right; exact H1|]. intros [E1 E2]. auto.
  - destruct ((let! a := context c in ctx_enter a) w) as [w' [r|e]] eqn:E; [|contradiction]. destruct (IH w' H) as (p' & H1 & H2).
    exists (With c p'). cbn [visits executes]. rewrite E. split; [right; right; exact H1|]. auto.
  - destruct (set_frozen true CircuitError w) as [w' [r|e]] eqn:E; [|contradiction]. destruct (IH w' H) as (p' & H1 & H2).
    exists (Frozen p'). cbn [visits executes]. rewrite E. split; [right; right; exact H1|]. auto.
  - destruct (IH w H) as (p' & H1 & H2). exists (Try p'). cbn [visits executes]. split; [right; right; exact H1|]. auto.
Qed.
End Step.

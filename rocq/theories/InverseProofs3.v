(** Proofs for C87: inverses from the other side. *)
From Coq Require Import List NArith Arith Bool Lia Reals Lra.
From Verif Require Import Py CRing Cplx KernelModel KernelSpec SimModel SimSpec SimReal SimProofs CallSpec GateModel GateProofs2 RewriteSpec RewriteProofs2 RewriteProofs3 InverseSpec InverseProofs.
Import ListNotations.
Local Open Scope N_scope.

Lemma twice_inverse k A : steps_ok k A -> alike_steps k A (inverse (inverse A)) C1.
Proof.
  intros H n ts v i Hk Hg Hi. rewrite Cone. pose proof (inverse_ok k A H) as H1. pose proof (inverse_ok k _ H1) as H2.
  pose proof (taken_back k (inverse A) H1 n ts (act_steps false n A ts v) i Hk Hg Hi) as Q. rewrite Cone, act_app in Q. cbn [act_steps] in Q. rewrite Q.
  apply (act_ext n k _ ts H2 Hk Hg); [|exact Hi]. intros j Hj. pose proof (taken_back k A H n ts v j Hk Hg Hj) as P. rewrite Cone, act_app in P. exact P.
Qed.
Lemma other_side k A : steps_ok k A -> alike_steps k (inverse A ++ A) [] C1.
Proof.
  intros H n ts v i Hk Hg Hi. rewrite Cone, act_app. cbn [act_steps]. pose proof (inverse_ok k A H) as H1.
  pose proof (twice_inverse k A H n ts (act_steps false n (inverse A) ts v) i Hk Hg Hi) as Q. rewrite Cone in Q. rewrite <- Q, <- act_app.
  pose proof (taken_back k (inverse A) H1 n ts v i Hk Hg Hi) as P. rewrite Cone in P. exact P.
Qed.

Lemma alike_effect c A B qs cond : steps_ok (length qs) A -> steps_ok (length qs) B -> alike_steps (length qs) A B C1 -> NoDup (sc_qubits Ccring c) -> NoDup qs -> incl qs (sc_qubits Ccring c) ->
  same_effect c (map (on qs cond) A) c (map (on qs cond) B).
Proof.
  intros HA HB H Hnd Hqs Hin. destruct (places _ qs Hin) as (ts & Hts). destruct (places_good c qs ts Hqs Hts) as (Hl & Hg).
  apply (effect_intro c c _ _ C1); [now apply (steps_fine c qs cond ts)|now apply (steps_fine c qs cond ts)|unfold Cnorm2, C1, Re, Im; cbn; ring|].
  intros v i Hi. rewrite !(steps_does c Hnd qs cond ts) by auto. now apply H.
Qed.
Theorem inverse_first c A qs cond : picked (length qs) A -> NoDup (sc_qubits Ccring c) -> NoDup qs -> incl qs (sc_qubits Ccring c) ->
  same_effect c (map (on qs cond) (inverse A ++ A)) c [] /\ same_effect c (map (on qs cond) A) c (map (on qs cond) (inverse (inverse A))).
Proof.
  intros HA Hnd Hqs Hin. apply picked_ok in HA. pose proof (inverse_ok _ A HA) as H1. split.
  - apply (alike_effect c (inverse A ++ A) [] qs cond); auto; [apply Forall_app; auto|constructor|now apply other_side].
  - apply alike_effect; auto; [now apply inverse_ok|now apply twice_inverse].
Qed.

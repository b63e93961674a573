(** Proofs for C68: equality of operations and of instructions. *)
From Coq Require Import List String ZArith Bool Arith Lia Permutation.
From Verif Require Import Py QirModel EqModel EqSpec.
Import ListNotations.

Section Instr.
Variable P : Type.
Variable peq : P -> P -> bool.
Notation instr := (instr P).
Notation sort_eq := (sort_eq P).

Lemma params_same a : forall b, params_eq P peq a b = true <-> Forall2 (fun p q => peq p q = true) a b.
Proof.
  induction a as [|x a IH]; intros [|y b]; cbn; split; intros H; try discriminate; try (inversion H; fail); auto.
  - apply andb_true_iff in H. constructor; [apply H|apply IH, H].
  - inversion H; subst. apply andb_true_iff. split; [assumption|now apply IH].
Qed.
Lemma parameters_numbers l : parameters P l = numbers P l.
Proof. induction l as [|[p|i|i] l IH]; cbn; try reflexivity; rewrite IH; reflexivity. Qed.

Definition qs (l : list (arg P)) := filter (fun a => match a with AQubit _ _ => true | _ => false end) l.
Definition rs (l : list (arg P)) := filter (fun a => match a with AResult _ _ => true | _ => false end) l.
Lemma split_perm l : Permutation l (map (ANum P) (numbers P l) ++ qs l ++ rs l).
Proof.
  induction l as [|[p|i|i] l IH]; cbn [numbers flat_map qs rs filter map app].
  - constructor.
  - now constructor.
  - fold (qs l) (rs l) (numbers P l). apply Permutation_cons_app. exact IH.
  - fold (qs l) (rs l) (numbers P l). rewrite app_assoc. apply Permutation_cons_app. now rewrite <- app_assoc.
Qed.
Lemma sorts_length (Q : arg P -> Prop) (a b : list (arg P)) : Forall Q a -> Forall Q b -> (forall u v, Q u -> Q v -> sort_eq u v) ->
  List.length a = List.length b -> Forall2 sort_eq a b.
Proof.
  intros Ha Hb H. revert b Hb. induction Ha as [|x a Hx Ha IH]; intros [|y b] Hb L; try discriminate; constructor.
  - apply H; [assumption|now inversion Hb].
  - apply IH; [now inversion Hb|]. now injection L.
Qed.
Lemma qs_are l : Forall (fun a => exists i, a = AQubit P i) (qs l).
Proof. apply Forall_forall. intros a H. apply filter_In in H. destruct a; try (destruct H; discriminate). eauto. Qed.
Lemma rs_are l : Forall (fun a => exists i, a = AResult P i) (rs l).
Proof. apply Forall_forall. intros a H. apply filter_In in H. destruct a; try (destruct H; discriminate). eauto. Qed.
Lemma ns_are l : Forall (fun a => exists i, a = ANum P i) (map (ANum P) l).
Proof. apply Forall_forall. intros a H. apply in_map_iff in H. destruct H as (p & <- & _). eauto. Qed.
Lemma sorts_count l m : Forall2 sort_eq l m ->
  List.length (numbers P l) = List.length (numbers P m) /\ List.length (qs l) = List.length (qs m) /\ List.length (rs l) = List.length (rs m).
Proof. induction 1 as [|[p|i|i] [p'|i'|i'] l m H _ (A & B & C)]; cbn in *; try contradiction; auto. Qed.
Lemma perm_count l m : Permutation l m -> List.length (qs l) = List.length (qs m) /\ List.length (rs l) = List.length (rs m).
Proof. induction 1 as [|[p|i|i] l m _ (A & B)|[p|i|i] [p'|i'|i'] l|l m k _ (A & B) _ (A' & B')]; unfold qs, rs in *; cbn in *; split; congruence. Qed.
Lemma counts_sorts l m : List.length (numbers P l) = List.length (numbers P m) -> List.length (qs l) = List.length (qs m) ->
  List.length (rs l) = List.length (rs m) -> exists k, Permutation k m /\ Forall2 sort_eq l k.
Proof.
  intros H1 H2 H3.
  assert (F : Forall2 sort_eq (map (ANum P) (numbers P l) ++ qs l ++ rs l) (map (ANum P) (numbers P m) ++ qs m ++ rs m)).
  { apply Forall2_app; [|apply Forall2_app].
    - eapply sorts_length; [apply ns_are|apply ns_are| |now rewrite !map_length]. intros u v (p & ->) (q & ->). exact I.
    - eapply sorts_length; [apply qs_are|apply qs_are| |exact H2]. intros u v (p & ->) (q & ->). exact I.
    - eapply sorts_length; [apply rs_are|apply rs_are| |exact H3]. intros u v (p & ->) (q & ->). exact I. }
  destruct (Permutation_Forall2 (Permutation_sym (split_perm l)) F) as (k & Hk & Fk). exists k. split; [|exact Fk].
  transitivity (map (ANum P) (numbers P m) ++ qs m ++ rs m); [now symmetry|]. symmetry. apply split_perm.
Qed.
Lemma itype_same a b : itype_eqb a b = true <-> a = b.
Proof. destruct a, b; cbn; split; congruence. Qed.

Lemma instr_alike x y : exists b, instr_eq P peq x (Some y) = Ok b /\ (b = true <-> alike P peq x y).
Proof.
  eexists. split; [reflexivity|]. rewrite !andb_true_iff, String.eqb_eq, itype_same, !Nat.eqb_eq, params_same, !parameters_numbers.
  unfold alike, count_qubits, count_results. fold (qs (i_args P x)) (qs (i_args P y)) (rs (i_args P x)) (rs (i_args P y)). split.
  - intros ((((A & B) & C) & D) & F). repeat (split; [assumption|]). split; [|assumption]. apply counts_sorts; auto.
    clear -F. induction F; cbn; congruence.
  - intros (A & B & (l & Pl & Fl) & F). destruct (sorts_count _ _ Fl) as (_ & C1 & C2). destruct (perm_count _ _ Pl) as (D1 & D2). repeat split; congruence.
Qed.

(** ** Execution *)
Variable D : Type.
Variable dbl : P -> D.
Variable deq : D -> D -> Prop.
Hypothesis dbl_eq : forall p q, peq p q = true -> deq (dbl p) (dbl q).
Lemma convert_alike ks : forall a b r r', convert P D dbl ks a = Ok r -> convert P D dbl ks b = Ok r' ->
  Forall2 (fun p q => peq p q = true) (numbers P a) (numbers P b) -> Forall2 (carg_alike D deq) r r'.
Proof.
  induction ks as [|k ks IH]; intros a b r r' Ha Hb F.
  - destruct a, b; cbn in Ha, Hb; try discriminate. injection Ha as <-. injection Hb as <-. constructor.
  - destruct k, a as [|[p|i|i] a]; cbn in Ha; try discriminate; destruct b as [|[q|j|j] b]; cbn in Hb; try discriminate;
      destruct (convert P D dbl ks a) as [ra|] eqn:Ea; cbn in Ha; try discriminate; destruct (convert P D dbl ks b) as [rb|] eqn:Eb; cbn in Hb; try discriminate;
      injection Ha as <-; injection Hb as <-; cbn in F; constructor; cbn; auto; try (eapply IH; eauto; fail).
    + inversion F; subst. auto.
    + inversion F; subst. eapply IH; eauto.
Qed.
Lemma alike_calls x y f r f' r' : alike P peq x y -> i_type P x <> EXTERNAL ->
  execute P D dbl x = Ok (Call D f r) -> execute P D dbl y = Ok (Call D f' r') -> f = f' /\ Forall2 (carg_alike D deq) r r'.
Proof.
  intros (A & B & _ & F) He Hx Hy. unfold execute in *. rewrite <- A, <- B in Hy.
  destruct (i_type P x) eqn:T; try congruence;
    (destruct (qis_function (i_name P x)) as [[callee ks]|]; [|discriminate];
     destruct (convert P D dbl ks (i_args P x)) as [ra|] eqn:Ea; cbn in Hx; try discriminate;
     destruct (convert P D dbl ks (i_args P y)) as [rb|] eqn:Eb; cbn in Hy; try discriminate;
     injection Hx as <- <-; injection Hy as <- <-; split; [reflexivity|]; eapply convert_alike; eauto).
Qed.
End Instr.

Lemma equal_calls P peq D (dbl : P -> D) (deq : D -> D -> Prop) : (forall p q, peq p q = true -> deq (dbl p) (dbl q)) ->
  forall (x y : instr P) f r f' r',
    instr_eq P peq x (Some y) = Ok true -> i_type P x <> EXTERNAL ->
    execute P D dbl x = Ok (Call D f r) -> execute P D dbl y = Ok (Call D f' r') -> f = f' /\ Forall2 (carg_alike D deq) r r'.
Proof.
  intros H x y f r f' r' E. destruct (instr_alike P peq x y) as (b & Eb & A). apply alike_calls with (peq := peq); [exact H|].
  apply A. congruence.
Qed.

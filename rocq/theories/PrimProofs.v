(** Proofs about primitives. *)
From Coq Require Import List ZArith Ascii String Bool Arith Lia.
From Verif Require Import Py WorldModel CounterModel CounterProofs PrimModel PrimSpec.
Import ListNotations.

Section PrimProofs.
Variable N : Type.
Variable neqb : N -> N -> bool.
Variable ntrue : N -> bool.
Variable digit : bool -> N.
Notation prim := (prim N).
Notation eq_prim := (eq_prim N neqb ntrue digit).
Notation py_eq := (py_eq N neqb ntrue digit).

Definition key (p : prim) : string := match p with PQubit _ _ i | PBit _ _ i _ => i | PVariable _ n _ => n end.
Lemma cls_eq p q : same_class N p q -> py_eq (VPrim N p) (VPrim N q) = String.eqb (key p) (key q).
Proof. destruct p as [| ? ? [|]|? [|]], q; cbn; intros H; destruct H; reflexivity. Qed.
Lemma prim_equivalence : equivalence (fun p q => same_class N p q /\ py_eq (VPrim N p) (VPrim N q) = true).
Proof.
  constructor.
  - intros p. split; [destruct p; exact I|]. rewrite cls_eq by (destruct p; exact I). destruct p; cbn; apply String.eqb_refl.
  - intros p q [H E]. rewrite cls_eq in * by (destruct p, q; cbn in *; tauto). split; [destruct p, q; cbn in *; tauto|]. now rewrite String.eqb_sym.
  - intros p q r [H E] [H' E']. assert (same_class N p r) by (destruct p, q, r; cbn in *; tauto).
    rewrite cls_eq in * by assumption. split; [assumption|]. apply String.eqb_eq in E, E'. apply String.eqb_eq. congruence.
Qed.
Lemma prim_symmetric : (forall m n, neqb m n = neqb n m) -> forall a b, py_eq a b = py_eq b a.
Proof.
  intros Sy [p|n|s] [q|m|t]; cbn; auto; try apply String.eqb_sym.
  destruct p as [l i|l i [b|]|x [y|]], q as [l' i'|l' i' [b'|]|x' [y'|]]; cbn; try apply String.eqb_sym; auto;
    repeat match goal with |- context [if ?c then _ else _] => destruct c end; auto.
Qed.
Lemma prim_reflexive : (forall n, neqb n n = true) -> forall a, py_eq a a = true.
Proof. intros R [p|n|s]; cbn; [apply (eq_refl_ _ prim_equivalence)|auto|apply String.eqb_refl]. Qed.

(** ** Objects that are made differ *)
Variable alphanum : list ascii.
Notation pstep := (pstep N alphanum).
Notation pruns := (pruns N alphanum).

Definition sched (x : pcall N) : list ccall := match x with PNewQubit _ _ k | PNewBit _ _ k => [CNext k] | PRefresh _ => [CRefresh] | _ => [] end.
Definition idof (p : prim) : list string := match p with PQubit _ _ i | PBit _ _ i _ => [i] | PVariable _ _ _ => [] end.
Definition ids (l : list prim) : list string := List.concat (map idof l).

Lemma ids_app l m : ids (l ++ m) = ids l ++ ids m.
Proof. unfold ids. now rewrite map_app, concat_app. Qed.
Lemma ids_set l : forall o p q, nth_error l o = Some p -> idof q = idof p -> ids (set_nth o q l) = ids l.
Proof.
  induction l as [|x l IH]; intros [|o] p q E H; try discriminate E; unfold ids in *; cbn in *.
  - injection E as ->. now rewrite H.
  - now rewrite (IH o p q E H).
Qed.

Lemma step_ids x (h : pheap N) : exists rs, run alphanum (sched x) (fst h) = (fst (fst (pstep x h)), rs) /\
  ids (snd (fst (pstep x h))) = ids (snd h) ++ map string_of_list_ascii (issued rs).
Proof.
  destruct h as [c l].
  assert (Q : forall l', ids l' = ids l -> exists rs, (c, []) = (c, rs) /\ ids l' = ids l ++ map string_of_list_ascii (issued rs)).
  { intros l' ->. exists []. now rewrite app_nil_r. }
  assert (Q0 := Q l eq_refl).
  assert (U : forall o p q, nth_error l o = Some p -> idof q = idof p -> exists rs, (c, []) = (c, rs) /\ ids (set_nth o q l) = ids l ++ map string_of_list_ascii (issued rs)).
  { intros o p q E H. apply Q. eapply ids_set; eauto. }
  destruct x; cbn -[ids].
  - destruct (next alphanum pick c) as [c' [i|e]]; cbn -[ids]; eexists; (split; [reflexivity|]); cbn -[ids]; rewrite ?ids_app, ?app_nil_r; reflexivity.
  - destruct (next alphanum pick c) as [c' [i|e]]; cbn -[ids]; eexists; (split; [reflexivity|]); cbn -[ids]; rewrite ?ids_app, ?app_nil_r; reflexivity.
  - apply Q. rewrite ids_app. apply app_nil_r.
  - destruct (nth_error l o) as [p|] eqn:E; [|exact Q0]. eapply U; [exact E|]. now destruct p.
  - destruct (nth_error l o) as [[| l0 i [b|]|]|] eqn:E; try exact Q0; [destruct force; [|exact Q0]|]; eapply U; eauto.
  - destruct (nth_error l o) as [[| |]|] eqn:E; try exact Q0. eapply U; eauto.
  - destruct (nth_error l o) as [[| |]|] eqn:E; try exact Q0. eapply U; eauto.
  - destruct (nth_error l o) as [[| |]|] eqn:E; try exact Q0. eapply U; eauto.
  - destruct (refresh alphanum c) as [c' r]; cbn -[ids]. exists []. now rewrite app_nil_r.
Qed.
Lemma run_app_c s : forall t c, run alphanum (s ++ t) c = (fst (run alphanum t (fst (run alphanum s c))), snd (run alphanum s c) ++ snd (run alphanum t (fst (run alphanum s c)))).
Proof.
  induction s as [|[k|] s IH]; intros t c; cbn.
  - now destruct (run alphanum t c).
  - destruct (next alphanum k c) as [c1 r]. rewrite IH. destruct (run alphanum s c1) as [c2 rs]. reflexivity.
  - apply IH.
Qed.
Lemma issued_app r : forall s, issued (r ++ s) = issued r ++ issued s.
Proof. induction r as [|[x|e] r IH]; intros s; cbn; [reflexivity|now rewrite IH|apply IH]. Qed.
Lemma runs_ids xs : forall h : pheap N, exists s, fst (run alphanum s (fst h)) = fst (pruns xs h) /\
  ids (snd (pruns xs h)) = ids (snd h) ++ map string_of_list_ascii (issued (snd (run alphanum s (fst h)))).
Proof.
  induction xs as [|x xs IH]; intros h; cbn.
  - exists []. cbn. now rewrite app_nil_r.
  - destruct (step_ids x h) as (rs & E & H). destruct (IH (fst (pstep x h))) as (s & E' & H'). exists (sched x ++ s).
    rewrite run_app_c, E. cbn. split; [exact E'|]. rewrite H', H, issued_app, map_app, app_assoc. reflexivity.
Qed.
Lemma nodup_ids xs len bat : NoDup alphanum -> NoDup (ids (snd (pruns xs (reset alphanum len bat, [])))).
Proof.
  intros Ha. destruct (runs_ids xs (reset alphanum len bat, [])) as (s & _ & ->). cbn.
  apply (FinFun.Injective_map_NoDup join_injective (ids_distinct_lemma alphanum Ha s len bat)).
Qed.
Lemma ids_nth l : forall a p i, nth_error l a = Some p -> In i (idof p) -> In i (ids l).
Proof. intros a p i E H. unfold ids. apply in_concat. exists (idof p). split; [|exact H]. apply in_map. eapply nth_error_In; eauto. Qed.
Lemma ids_once l : NoDup (ids l) -> forall a b p q i, nth_error l a = Some p -> nth_error l b = Some q -> In i (idof p) -> In i (idof q) -> a = b.
Proof.
  induction l as [|x l IH]; intros Hn a b p q i Ea Eb Hp Hq; [destruct a; discriminate|].
  change (ids (x :: l)) with (idof x ++ ids l) in Hn.
  destruct a as [|a], b as [|b]; cbn in *; auto.
  - exfalso. injection Ea as ->. assert (In i (ids l)) by (eapply ids_nth; eauto). clear -Hn Hp H.
    induction (idof p) as [|y m IHm]; [destruct Hp|]. cbn in Hn. inversion Hn; subst. destruct Hp as [->|Hp]; [|auto]. apply H2. apply in_or_app. auto.
  - exfalso. injection Eb as ->. assert (In i (ids l)) by (eapply ids_nth; eauto). clear -Hn Hq H.
    induction (idof q) as [|y m IHm]; [destruct Hq|]. cbn in Hn. inversion Hn; subst. destruct Hq as [->|Hq]; [|auto]. apply H2. apply in_or_app. auto.
  - f_equal. eapply IH; eauto. eapply NoDup_app_r; eauto.
Qed.
Lemma objects_differ xs len bat a b p q : NoDup alphanum ->
  nth_error (snd (pruns xs (reset alphanum len bat, []))) a = Some p -> nth_error (snd (pruns xs (reset alphanum len bat, []))) b = Some q ->
  has_id N p -> same_class N p q -> (py_eq (VPrim N p) (VPrim N q) = true <-> a = b).
Proof.
  intros Ha Ea Eb Hp Hs. split.
  - intros E. pose proof (nodup_ids xs len bat Ha) as Hn.
    rewrite cls_eq in E by exact Hs. apply String.eqb_eq in E.
    destruct p as [l i|l i v|n v], q as [l' i'|l' i' v'|n' v']; cbn in Hs, Hp, E; try tauto; subst i'; eapply (ids_once _ Hn a b); eauto; cbn; auto.
  - intros <-. rewrite Ea in Eb. injection Eb as <-. apply (eq_refl_ _ prim_equivalence).
Qed.

(** ** Equality and hash last *)
Variable shash : string -> Z.
Variable nhash : N -> Z.
Notation py_hash := (py_hash N shash nhash).
Lemma prim_hash p q : same_class N p q -> py_eq (VPrim N p) (VPrim N q) = true -> py_hash (VPrim N p) = py_hash (VPrim N q).
Proof. intros H E. rewrite cls_eq in E by exact H. apply String.eqb_eq in E. destruct p, q; cbn in *; try destruct H; now rewrite E. Qed.


Definition core_of (p : prim) : prim := match p with PQubit _ _ i => PQubit N "" i | PBit _ _ i _ => PBit N "" i None | PVariable _ n _ => PVariable N n None end.
Lemma step_core x (h : pheap N) a p : nth_error (snd h) a = Some p -> exists p', nth_error (snd (fst (pstep x h))) a = Some p' /\ core_of p' = core_of p.
Proof.
  intros E.
  assert (A : forall l : list prim, exists p', nth_error (snd h ++ l) a = Some p' /\ core_of p' = core_of p).
  { intros l. exists p. rewrite nth_error_app1; [auto|]. apply nth_error_Some. congruence. }
  assert (B : forall o q r, nth_error (snd h) o = Some q -> core_of r = core_of q -> exists p', nth_error (snd (put N o r h)) a = Some p' /\ core_of p' = core_of p).
  { unfold put. cbn. generalize (snd h) E. clear. revert a. intros a l. revert a. induction l as [|y l IH]; intros [|a] E [|o] q r Eo H; try discriminate E; try discriminate Eo; cbn in *; eauto.
    injection E as ->. injection Eo as ->. eauto. }
  destruct x; cbn -[put].
  - destruct (next alphanum pick (fst h)) as [c [i|e]]; cbn; eauto.
  - destruct (next alphanum pick (fst h)) as [c [i|e]]; cbn; eauto.
  - apply A.
  - destruct (nth_error (snd h) o) as [q|] eqn:Eo; [|eauto]. apply (B o q); auto. now destruct q.
  - destruct (nth_error (snd h) o) as [[| l i [b|]|]|] eqn:Eo; try destruct force; first [now eauto|eapply B; eauto].
  - destruct (nth_error (snd h) o) as [[| |]|] eqn:Eo; first [now eauto|eapply B; eauto].
  - destruct (nth_error (snd h) o) as [[| |]|] eqn:Eo; first [now eauto|eapply B; eauto].
  - destruct (nth_error (snd h) o) as [[| |]|] eqn:Eo; first [now eauto|eapply B; eauto].
  - destruct (refresh alphanum (fst h)); cbn; eauto.
Qed.
Lemma runs_core xs : forall (h : pheap N) a p, nth_error (snd h) a = Some p -> exists p', nth_error (snd (pruns xs h)) a = Some p' /\ core_of p' = core_of p.
Proof.
  induction xs as [|x xs IH]; intros h a p E; cbn; [eauto|]. destruct (step_core x h a p E) as (p1 & E1 & H1).
  destruct (IH _ a p1 E1) as (p2 & E2 & H2). exists p2. split; [exact E2|congruence].
Qed.
Lemma core_same p q p' q' : core_of p' = core_of p -> core_of q' = core_of q -> same_class N p q ->
  same_class N p' q' /\ py_eq (VPrim N p') (VPrim N q') = py_eq (VPrim N p) (VPrim N q).
Proof.
  intros Hp Hq H. assert (H' : same_class N p' q') by (destruct p, p', q, q'; cbn in *; try discriminate; tauto).
  split; [exact H'|]. rewrite !cls_eq by assumption.
  destruct p, p', q, q'; cbn in *; try discriminate; try tauto; injection Hp as ->; injection Hq as ->; reflexivity.
Qed.
Lemma core_hash p p' : core_of p' = core_of p -> py_hash (VPrim N p') = py_hash (VPrim N p).
Proof. destruct p, p'; cbn; try discriminate; intros [= ->]; auto. Qed.
Lemma equality_lasts xs (h : pheap N) a b p q : nth_error (snd h) a = Some p -> nth_error (snd h) b = Some q -> same_class N p q ->
  exists p' q', nth_error (snd (pruns xs h)) a = Some p' /\ nth_error (snd (pruns xs h)) b = Some q' /\ same_class N p' q' /\
    py_eq (VPrim N p') (VPrim N q') = py_eq (VPrim N p) (VPrim N q) /\
    py_hash (VPrim N p') = py_hash (VPrim N p) /\ py_hash (VPrim N q') = py_hash (VPrim N q).
Proof.
  intros Ea Eb H. destruct (runs_core xs h a p Ea) as (p' & Ea' & Hp). destruct (runs_core xs h b q Eb) as (q' & Eb' & Hq).
  exists p', q'. destruct (core_same p q p' q' Hp Hq H). auto 10 using core_hash.
Qed.
End PrimProofs.

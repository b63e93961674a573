(** The cache of build_unitary. *)
From Coq Require Import List Arith Bool Lia.
From Verif Require Import Py CacheModel.
Import ListNotations.

Section Cache.
Variables A M : Type.
Variable build : A -> res M.
Variable maxsize : nat.
Notation step := (step A M build maxsize).
Notation history := (history A M build maxsize).
Notation build_call := (build_call A M build maxsize).
Notation cstate := (cstate A M).

Lemma lookup_drop_other c c' (l : cache M) : c <> c' -> lookup M c (drop M c' l) = lookup M c l.
Proof.
  intros H. induction l as [|[d m] l IH]; [reflexivity|]. simpl.
  destruct (Nat.eqb_spec c' d) as [->|Hd]; simpl.
  - destruct (Nat.eqb_spec c d); [contradiction|exact IH].
  - now rewrite IH.
Qed.

Lemma lookup_firstn c k (l : cache M) m : lookup M c (firstn k l) = Some m -> lookup M c l = Some m.
Proof.
  revert k. induction l as [|[d x] l IH]; intros [|k]; simpl; try discriminate.
  destruct (Nat.eqb c d); [auto|apply IH].
Qed.

(** Anything the cache holds for [c] after a step it held before, or was just computed. *)
Lemma step_lookup e (s : cstate) c m : lookup M c (cached A M (step e s)) = Some m ->
  lookup M c (cached A M s) = Some m \/ (e = Build A c /\ build (contents A M s c) = Ok m).
Proof.
  destruct e as [d a|d]; simpl; [auto|]. unfold CacheModel.build_call.
  destruct (lookup M d (cached A M s)) as [x|] eqn:E.
  - simpl. destruct (Nat.eqb_spec c d) as [->|H].
    + rewrite E. auto.
    + rewrite lookup_drop_other by exact H. auto.
  - destruct (build (contents A M s d)) as [x|er] eqn:B; simpl; [|auto].
    intros H. apply (lookup_firstn c maxsize) in H. simpl in H.
    destruct (Nat.eqb_spec c d) as [->|Hd]; [injection H as ->; auto|auto].
Qed.

Lemma step_contents e (s : cstate) c : (forall a, e <> Edit A c a) ->
  contents A M (step e s) c = contents A M s c.
Proof.
  intros H. destruct e as [d a|d]; simpl.
  - destruct (Nat.eqb_spec c d) as [->|]; [exfalso; now apply (H a)|reflexivity].
  - unfold CacheModel.build_call. destruct (lookup _ _ _); [reflexivity|]. now destruct (build _).
Qed.

Lemma no_build evs c : ~ In (Build A c) evs -> forall s, lookup M c (cached A M s) = None ->
  lookup M c (cached A M (history evs s)) = None.
Proof.
  induction evs as [|e evs IH]; intros H s Hs; [exact Hs|]. simpl. apply IH; [intros Hi; apply H; now right|].
  destruct (lookup M c (cached A M (step e s))) as [m|] eqn:E; [|reflexivity].
  apply step_lookup in E. destruct E as [E|[E _]]; [congruence|]. exfalso. apply H. left. exact E.
Qed.

Definition fresh_entry (c : nat) (s : cstate) : Prop :=
  forall m, lookup M c (cached A M s) = Some m -> build (contents A M s c) = Ok m.

Lemma no_edit evs c : (forall a, ~ In (Edit A c a) evs) -> forall s, fresh_entry c s -> fresh_entry c (history evs s).
Proof.
  induction evs as [|e evs IH]; intros H s Hs; [exact Hs|]. simpl.
  apply IH; [intros a Hi; apply (H a); now right|].
  intros m Hm. rewrite step_contents by (intros a ->; apply (H a); now left).
  apply step_lookup in Hm. destruct Hm as [Hm|[_ Hm]]; auto.
Qed.

Lemma fresh_build c s : fresh_entry c s -> snd (build_call c s) = build (contents A M s c).
Proof.
  intros H. unfold CacheModel.build_call. destruct (lookup M c (cached A M s)) as [m|] eqn:E.
  - simpl. symmetry. now apply H.
  - now destruct (build (contents A M s c)).
Qed.

Lemma history_app evs1 evs2 s : history (evs1 ++ evs2) s = history evs2 (history evs1 s).
Proof. revert s. induction evs1 as [|e evs1 IH]; intros s; [reflexivity|]. simpl. apply IH. Qed.

Theorem cache_unedited f evs1 evs2 c : ~ In (Build A c) evs1 -> (forall a, ~ In (Edit A c a) evs2) ->
  let s := history (evs1 ++ evs2) (start A M f) in
  snd (build_call c s) = build (contents A M s c).
Proof.
  intros H1 H2 s. apply fresh_build. unfold s. rewrite history_app. apply no_edit; [exact H2|].
  intros m Hm. rewrite no_build in Hm; [discriminate|exact H1|reflexivity].
Qed.

(** In general a call returns the matrix of some earlier state of the same circuit. *)
Definition was (f : nat -> A) (evs : list (event A)) (c : nat) (a : A) : Prop :=
  exists evs1 evs2, evs = evs1 ++ evs2 /\ contents A M (history evs1 (start A M f)) c = a.

Theorem cache_some_state f evs c m : snd (build_call c (history evs (start A M f))) = Ok m ->
  exists a, was f evs c a /\ build a = Ok m.
Proof.
  assert (Inv : forall c m, lookup M c (cached A M (history evs (start A M f))) = Some m ->
    exists a, was f evs c a /\ build a = Ok m).
  { induction evs as [|e evs IH] using rev_ind; intros d x Hx; [discriminate|].
    rewrite history_app in Hx. simpl in Hx. apply step_lookup in Hx. destruct Hx as [Hx|[-> Hx]].
    - destruct (IH _ _ Hx) as (a & (e1 & e2 & -> & Ha) & Hb). exists a. split; [|exact Hb].
      exists e1, (e2 ++ [e]). split; [now rewrite app_assoc|exact Ha].
    - eexists. split; [|exact Hx]. exists evs, [Build A d]. split; reflexivity. }
  unfold CacheModel.build_call. destruct (lookup M c _) as [x|] eqn:E.
  - simpl. intros H. injection H as ->. now apply Inv.
  - destruct (build _) as [x|er] eqn:B; simpl; intros H; [|discriminate]. injection H as ->.
    eexists. split; [|exact B]. exists evs, []. split; [now rewrite app_nil_r|reflexivity].
Qed.
End Cache.

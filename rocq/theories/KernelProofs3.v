(** Memory footprint of the generated loops, for valid but possibly repeated qubits. *)
From Coq Require Import List NArith Bool Lia Permutation.
From Verif Require Import CRing KernelModel KernelSpec KernelBits KernelProofs.
Import ListNotations.
Local Open Scope N_scope.

Section Frame.
Variable K : cring.
Variable P : params.
Variable g : N -> N -> entry K.
Variable scale : option K.
Variable outs : list N.
Hypothesis outs_size : forall s, In s outs -> s < size P.

Definition in_block (b i : N) : Prop := exists s, s < size P /\ i = state_index P b s.

Lemma upd_fold_gen (f : N -> N) (r r' : N -> K) (l : list N) : forall (v w : N -> K) j,
  (forall i, In i l -> r i = r' i) ->
  v j = w j -> fold_left (fun v' i => upd v' (f i) (r i)) l v j
             = fold_left (fun v' i => upd v' (f i) (r' i)) l w j.
Proof.
  induction l as [|a l IH]; intros v w j Hr Hv; [exact Hv|]. cbn [fold_left].
  apply IH; [intros; apply Hr; now right|]. unfold upd. rewrite (Hr a) by now left.
  now destruct (j =? f a).
Qed.

Lemma upd_fold_other (f : N -> N) (r : N -> K) (l : list N) : forall (v : N -> K) j,
  (forall i, In i l -> j <> f i) -> fold_left (fun v' i => upd v' (f i) (r i)) l v j = v j.
Proof.
  induction l as [|a l IH]; intros v j H; [reflexivity|]. cbn [fold_left].
  rewrite IH by (intros; apply H; now right). unfold upd.
  destruct (N.eqb_spec j (f a)) as [E|]; [|reflexivity]. exfalso. now apply (H a); [left|].
Qed.

Lemma body_frame v b i : ~ in_block b i -> body P g outs scale v b i = v i.
Proof.
  intros H. unfold body. apply upd_fold_other. intros s Hs E. apply H. exists s. auto.
Qed.

Lemma body_agree v w b i :
  (forall j, in_block b j -> v j = w j) -> v i = w i ->
  body P g outs scale v b i = body P g outs scale w b i.
Proof.
  intros H Hi. unfold body. apply upd_fold_gen; [|exact Hi]. intros s Hs.
  rewrite !multiply_spec.
  rewrite (sumf_ext K _ _ (fun t => rmul (entry_val (g s t)) (w (state_index P b t)))); [reflexivity|].
  intros t Ht. apply In_Nrange in Ht. rewrite H; [reflexivity|]. exists t. auto.
Qed.

Lemma block_disjoint b c i : in_block b i -> in_block c i -> b = c.
Proof. intros (s & _ & ->) (t & _ & E). now apply state_index_block in E. Qed.

Lemma body_comm v b c i : b <> c ->
  body P g outs scale (body P g outs scale v b) c i = body P g outs scale (body P g outs scale v c) b i.
Proof.
  intros Hne.
  assert (Hdec : forall x j, in_block x j \/ ~ in_block x j).
  { intros x j. destruct (existsb (fun s => j =? state_index P x s) (Nrange (size P))) eqn:E.
    - left. apply existsb_exists in E. destruct E as (s & Hs & E). apply In_Nrange in Hs.
      apply N.eqb_eq in E. exists s. auto.
    - right. intros (s & Hs & Ej).
      assert (Ht : existsb (fun s => j =? state_index P x s) (Nrange (size P)) = true).
      { apply existsb_exists. exists s. split; [now apply In_Nrange|]. now apply N.eqb_eq. }
      congruence. }
  destruct (Hdec c i) as [Hc|Hc].
  - assert (Hb : ~ in_block b i) by (intros Hb; apply Hne; eapply block_disjoint; eauto).
    rewrite (body_frame _ b i Hb). apply body_agree; [|now apply body_frame].
    intros j Hj. apply body_frame. intros Hb'. apply Hne. eapply block_disjoint; eauto.
  - rewrite (body_frame _ c i Hc). destruct (Hdec b i) as [Hb|Hb].
    + symmetry. apply body_agree; [|now apply body_frame].
      intros j Hj. apply body_frame. intros Hc'. apply Hne. eapply block_disjoint; eauto.
    + rewrite !body_frame; auto.
Qed.

Lemma loop_ext bs : forall v w, (forall i, v i = w i) ->
  forall i, fold_left (body P g outs scale) bs v i = fold_left (body P g outs scale) bs w i.
Proof.
  induction bs as [|b bs IH]; intros v w H i; [apply H|]. cbn [fold_left]. apply IH.
  intros j. apply body_agree; auto.
Qed.

Lemma loop_perm bs bs' : Permutation bs bs' -> NoDup bs -> forall v i,
  fold_left (body P g outs scale) bs v i = fold_left (body P g outs scale) bs' v i.
Proof.
  induction 1 as [|b l l' Hp IH|b c l|l l' l'' H1 IH1 H2 IH2]; intros Hn v i.
  - reflexivity.
  - cbn [fold_left]. apply IH. now inversion Hn.
  - cbn [fold_left]. apply loop_ext. intros j. apply body_comm.
    inversion Hn as [|? ? Hx _]; subst. intros ->. apply Hx. now left.
  - rewrite IH1 by auto. apply IH2. eapply Permutation_NoDup; eauto.
Qed.

Lemma loop_frame bs : forall v i, (forall b, In b bs -> ~ in_block b i) ->
  fold_left (body P g outs scale) bs v i = v i.
Proof.
  induction bs as [|b bs IH]; intros v i H; [reflexivity|]. cbn [fold_left].
  rewrite IH by (intros; apply H; now right). apply body_frame, H. now left.
Qed.

Lemma loop_agree (D : N -> Prop) bs : forall v w,
  (forall b i, In b bs -> in_block b i -> D i) ->
  (forall i, D i -> v i = w i) -> forall i, D i ->
  fold_left (body P g outs scale) bs v i = fold_left (body P g outs scale) bs w i.
Proof.
  induction bs as [|b bs IH]; intros v w HD H i Hi; [now apply H|]. cbn [fold_left].
  apply IH; [intros; eapply HD; eauto; now right| |exact Hi].
  intros j Hj. apply body_agree; [|now apply H]. intros k Hk. apply H, (HD b k); [now left|auto].
Qed.
End Frame.

Section Safety.
Variable K : cring.

Lemma output_states_size sz (g : N -> N -> entry K) a b s : In s (output_states sz g a b) -> s < sz.
Proof. intros H. apply filter_In in H. now apply In_Nrange. Qed.

Lemma touched_lt (P : params) (g : N -> N -> entry K) si szr b i :
  (forall q, In q (p_targets P ++ p_controls P) -> q < p_n P) ->
  b < iterations P -> In i (touched P g si szr b) -> i < 2 ^ p_n P.
Proof.
  intros H Hb Hi. unfold touched in Hi. apply in_map_iff in Hi. destruct Hi as (s & <- & _).
  now apply state_index_lt.
Qed.

Lemma touched_disjoint (P : params) (g : N -> N -> entry K) si szr b c i :
  In i (touched P g si szr b) -> In i (touched P g si szr c) -> b = c.
Proof.
  intros H1 H2. apply in_map_iff in H1. apply in_map_iff in H2.
  destruct H1 as (s & <- & _), H2 as (t & E & _). symmetry in E. now apply state_index_block in E.
Qed.

(** The kernel neither writes outside the vector nor lets anything outside it influence the result. *)
Theorem kernel_footprint (P : params) (g : N -> N -> entry K) (scale : option K) (v w : N -> K) :
  p_n P <= 30 ->
  (forall q, In q (p_targets P ++ p_controls P) -> q < p_n P) ->
  (forall i, i < 2 ^ p_n P -> v i = w i) ->
  exists v' w', kernel P g scale v = Some v' /\ kernel P g scale w = Some w' /\
    (forall i, 2 ^ p_n P <= i -> v' i = v i) /\
    (forall i, i < 2 ^ p_n P -> v' i = w' i).
Proof.
  intros Hn Hlt Hvw. unfold kernel. apply N.leb_le in Hn. rewrite Hn.
  do 2 eexists. split; [reflexivity|]. split; [reflexivity|]. split.
  - intros i Hi. apply loop_frame; [apply output_states_size|].
    intros b Hb (s & _ & ->). apply In_Nrange in Hb. pose proof (state_index_lt P Hlt b s Hb). lia.
  - intros i Hi. apply (loop_agree K P g scale _ (fun i => i < 2 ^ p_n P)); auto.
    intros b j Hb (s & _ & ->). apply In_Nrange in Hb. now apply state_index_lt.
Qed.

(** The iterations can be run in any order. *)
Theorem kernel_order (P : params) (g : N -> N -> entry K) (scale : option K) (v : N -> K) order v' :
  Permutation order (Nrange (iterations P)) ->
  kernel P g scale v = Some v' ->
  forall i, v' i =
    fold_left (body P g (output_states (size P) g (match scale with None => true | Some _ => false end) false) scale)
              order v i.
Proof.
  intros Hp. unfold kernel. destruct (p_n P <=? 30); [|discriminate]. intros [= <-] i.
  apply loop_perm; [apply output_states_size|now apply Permutation_sym|apply NoDup_Nrange].
Qed.
End Safety.

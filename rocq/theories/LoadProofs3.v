(** Adding qubits and bits while loading, and what a load has done so far. *)
From Coq Require Import List ZArith String Bool Arith Lia.
From Verif Require Import Py QirModel LinkModel RegisterModel RegisterSpec RegisterProofs WorldModel WorldSpec WorldSpec4 WorldReg WorldInv WorldInv2 WorldInv3 WorldInv4 WorldInv5 WorldInv6 WorldInv7 WorldWf2 WorldOps ExportSpec LoadModel LoadSpec LoadProofs LoadProofs2.
Import ListNotations.
Local Open Scope nat_scope.

Section Steps.
Variable P : Type.
Variable ptrue : P -> bool.
Variable peqb : P -> P -> bool.
Variable more : list cls.
Notation world := (world P).
Notation M := (WorldModel.M P).
Notation ok := (both_ok P ptrue peqb).
Notation origin := (start P (library_classes ++ more)%list).

Notation ended := (ended P ptrue peqb more).
Lemma ended_run (w : world) q : ended w -> executes P ptrue peqb ok q w -> ended (fst (run ptrue peqb q w)).
Proof.
  intros (p & H1 & H2) Hq. exists (Seq (Try p) q). cbn [executes run]. unfold mbind. rewrite H2. auto.
Qed.
Lemma ended_visits (w : world) : ended w -> exists p, executes P ptrue peqb ok p origin /\ visits P ptrue peqb p origin w.
Proof. intros (p & H1 & H2). exists p. split; [exact H1|]. destruct p; cbn [visits]; auto. Qed.
Lemma ended_inv (w : world) : ended w -> small P w -> JQ P w /\ JB P w /\ clear P w /\ SV P w.
Proof.
  intros E S. destruct (ended_visits w E) as (p & H1 & H2).
  assert (R : forall ok' : world -> WorldModel.call P -> Prop, (forall w y, ok w y -> ok' w y) -> reaches P ptrue peqb ok' w).
  { intros ok' H. exists (library_classes ++ more)%list, p. split; [eapply executes_impl; eauto|exact H2]. }
  split; [apply (JQ_reach P ptrue peqb); [apply R|exact S]; unfold both_ok, own_ok; tauto|].
  destruct (IB_reach P ptrue peqb w) as [A B]; [apply R; unfold both_ok; tauto|exact S|]. split; [exact A|]. split; [exact B|].
  apply (SV_reach P ptrue peqb); [apply R|exact S]. unfold both_ok, own_ok. tauto.
Qed.

Lemma clear_keep (w w' : world) c x x' : clear P w -> w_bit w' = w_bit w -> nth_error (w_circ w) c = Some x -> c_b x' = c_b x ->
  w_circ w' = set_nth c x' (w_circ w) -> clear P w'.
Proof.
  intros C Eb Hc Hx Ew. apply (clear_same P w w'); auto. rewrite Ew, set_nth_map, Hx. apply set_nth_id. now rewrite nth_map, Hc.
Qed.

(** ** The first register *)
Lemma dset_first l (r r' : register) t : dset label_eqb l r' ((l, r) :: t) = (l, r') :: t.
Proof. cbn. destruct (label_eqb_spec l l); congruence. Qed.
Lemma all_empty (t : list (label * register)) : Forall (fun q => contents (snd q) = []) t -> all_items t = [].
Proof. unfold all_items. induction 1 as [|q t H F IH]; cbn; [reflexivity|]. now rewrite H, IH. Qed.
Lemma all_cons l r (t : list (label * register)) : all_items ((l, r) :: t) = contents r ++ all_items t.
Proof. reflexivity. Qed.

Lemma first_fits d s s1 l' r v r' : fits s -> chosen d (s_regs s) LNone (s_regs s1) l' r ->
  (frozen_ r' = Some false -> contents r' = contents r ++ [v] ->
   fits (mkSide (dset label_eqb l' r' (s_regs s1)) None) /\ all_items (dset label_eqb l' r' (s_regs s1)) = all_items (s_regs s) ++ [v]) /\ frozen_ r <> Some true.
Proof.
  intros F Hch. pose proof (chosen_items _ _ _ _ _ _ Hch) as Hi. destruct Hch as (_ & _ & H1 & H2). destruct (H1 eq_refl) as (t & Et). rewrite Et in *.
  assert (G : frozen_ r = Some false /\ Forall (fun q => contents (snd q) = []) t).
  { destruct F as [F|(l & r0 & t0 & F & Fr & Ft)].
    - rewrite F in H2. destruct H2 as [H2|(H2 & _ & _ & _ & H3 & _)]; [discriminate|]. cbn in H2. injection H2 as ->. auto.
    - rewrite F in H2. destruct H2 as [H2|(H2 & _ & _ & _ & H3 & H4)].
      + injection H2 as -> -> ->. auto.
      + destruct (H4 eq_refl) as [_ H]. discriminate. }
  destruct G as [G1 G2]. split; [|congruence]. intros Hf Hc. rewrite dset_first. split.
  - right. exists l', r', t. auto.
  - rewrite <- Hi, !all_cons, Hc, (all_empty t G2), !app_nil_r. reflexivity.
Qed.

Lemma add_step (w : world) c x : JQ P w -> small P w -> nth_error (w_circ w) c = Some x -> fits (c_q x) ->
  exists s l, add_qubit c ANone LNone w = (set_qubit (set_circ w (set_nth c (with_q x s) (w_circ w))) (w_qubit w ++ [l]), Ok tt) /\
    fits s /\ all_items (s_regs s) = circuit_qubits x ++ [IQubit (List.length (w_qubit w))].
Proof.
  intros J S Hc F. destruct (add_qubit_run P c ANone LNone w x J S Hc) as (s & l' & r & Hch & Hs & Ha); [discriminate|discriminate|].
  assert (Fz : frozen_ r <> Some true) by exact (proj2 (first_fits _ _ _ _ _ INone r F Hch)).
  remember (add_qubit c ANone LNone w) as out. destruct Ha as [q rv Hq|rv ls _ Hf|q ls r' _ _ Hq Hl Rr Hf Hcr]; [discriminate|contradiction|]. cbn in Hq, Hl. subst q ls.
  destruct (proj1 (first_fits _ _ _ _ _ (IQubit (List.length (w_qubit w))) r' F Hch) Hf Hcr) as [F' A'].
  eexists (mkSide _ None), _. split; [|split; [exact F'|exact A']].
  unfold set_circ at 1 2. cbn. reflexivity.
Qed.

Lemma add_bit_step (w : world) c x : JB P w -> small P w -> nth_error (w_circ w) c = Some x -> clear_at P w x -> fits (c_b x) ->
  exists s l, add_bit c ANone LNone w = (set_bit (set_circ w (set_nth c (with_b x s) (w_circ w))) (w_bit w ++ [(l, None)]), Ok tt) /\
    fits s /\ all_items (s_regs s) = circuit_bits x ++ [IBit (List.length (w_bit w))].
Proof.
  intros J S Hc Hcl F. destruct (add_bit_run P c ANone LNone w x J S Hc Hcl) as (s & l' & r & Hch & Hs & Ha); [discriminate|discriminate|].
  assert (Fz : frozen_ r <> Some true) by exact (proj2 (first_fits _ _ _ _ _ INone r F Hch)).
  remember (add_bit c ANone LNone w) as out. destruct Ha as [q rv Hq|rv ls _ Hf|q ls r' _ _ Hq Hl Rr Hf Hcr]; [discriminate|contradiction|]. cbn in Hq, Hl. subst q ls.
  assert (Sn : forall l i, seen (w_bit w ++ [(l, None)]) i (IBit (List.length (w_bit w))) = IBit (List.length (w_bit w))).
  { intros l i. unfold seen, numeq. rewrite nth_error_app2, Nat.sub_diag by auto. reflexivity. }
  rewrite Sn in Hcr.
  destruct (proj1 (first_fits _ _ _ _ _ (IBit (List.length (w_bit w))) r' F Hch) Hf Hcr) as [F' A'].
  eexists (mkSide _ None), _. split; [|split; [exact F'|exact A']].
  unfold set_circ at 1 2. cbn. reflexivity.
Qed.
End Steps.

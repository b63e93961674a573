(** Branches of a circuit whose operations are in another order. *)
From Coq Require Import List NArith Arith Bool Lia Reals Lra Permutation.
From Verif Require Import Py CRing Cplx KernelModel KernelSpec KernelProofs2 SimModel SimSpec SimReal SimProofs SimProofs2 SimProofs3 SimProofs4 MeasureSpec SimProofs7
  UnitarySpec CallSpec CallProofs CallProofs2 CallProofs3 SampleModel SampleSpec SampleProofs SampleProofs2 BranchSpec BranchProofs BranchProofs2 GateModel GateProofs2 RewriteSpec RewriteProofs
  RewriteProofs2 RewriteProofs4 OrderSpec OrderProofs OrderProofs2.
Import ListNotations.
Local Open Scope R_scope.

Section Branches.
Variable c : scirc Ccring.
Hypothesis Hc : NoDup (sc_qubits Ccring c).
Notation n := (num_qubits Ccring c).
Notation br := (branch c).
Notation wf := (fun l => forall o, In o l -> wf_op c o).

Lemma branch_recorded l h f g v bits w : br l h f v bits w -> (forall b, g b = f b) -> br l h g v bits w.
Proof. intros H E. eapply branch_bits; eauto. Qed.

(** Each kind of step, seen from the branch. *)
Lemma blocked_branch o l h bits v bits' w : some_zero bits (so_cond Ccring o) -> br (o :: l) h bits v bits' w -> br l h bits v bits' w.
Proof. intros Z H. inversion H; subst; [auto|contradiction|contradiction]. Qed.
Lemma gate_branch o l ts h bits v bits' w : wf_op c o -> wf l -> ~ some_zero bits (so_cond Ccring o) -> is_measure (so_kind Ccring o) = false -> placed c o ts ->
  br (o :: l) h bits v bits' w -> br l h bits (@gate_action Ccring false n (so_kind Ccring o) ts v) bits' w.
Proof.
  intros Wo Wl Z Em Hp H. inversion H as [|? ? ? ? ? ? ? Z'|? ? ? ts' ? ? v' ? ? Z' Em' Hp' Hv H'|? ? mid st os h' ts' ? ? v' ? ? Z' Ek]; subst; [contradiction| |rewrite Ek in Em; discriminate Em].
  assert (ts' = ts) by (exact (placed_unique Ccring c o ts' ts Hc Hp' Hp)). subst ts'. apply (branch_ext c Hc l h bits v' bits' w H'); [exact Wl|]. intros i Hi. symmetry. auto.
Qed.
Definition kept (ts : list N) (os : list bool) (v : N -> C) : N -> C := fun i => if shows n i ts os then v i else C0.
Lemma measure_branch o l mid st ts h bits v bits' w : wf_op c o -> wf l -> ~ some_zero bits (so_cond Ccring o) -> so_kind Ccring o = KMeasure Ccring mid st -> placed c o ts ->
  br (o :: l) h bits v bits' w -> exists os h', h = os ++ h' /\ length os = length ts /\ br l h' (recorded st os bits) (kept ts os v) bits' w.
Proof.
  intros Wo Wl Z Ek Hp H. inversion H as [|? ? ? ? ? ? ? Z'|? ? ? ts' ? ? v' ? ? Z' Em' Hp' Hv H'|? ? mid' st' os h' ts' ? ? v' ? ? Z' Ek' Hp' Hl Hv H']; subst; [contradiction|rewrite Ek in Em'; discriminate Em'|].
  rewrite Ek in Ek'. injection Ek' as <- <-. assert (ts' = ts) by (exact (placed_unique Ccring c o ts' ts Hc Hp' Hp)). subst ts'.
  exists os, h'. split; [reflexivity|]. split; [exact Hl|]. apply (branch_ext c Hc l h' _ v' bits' w H'); [exact Wl|]. intros i Hi. symmetry. exact (Hv i Hi).
Qed.
Lemma branch_measured o l mid st ts os h bits v bits' w : ~ some_zero bits (so_cond Ccring o) -> so_kind Ccring o = KMeasure Ccring mid st -> placed c o ts -> length os = length ts ->
  br l h (recorded st os bits) (kept ts os v) bits' w -> br (o :: l) (os ++ h) bits v bits' w.
Proof. intros Z Ek Hp Hl H. exact (branch_measure c o l mid st os h ts bits v (kept ts os v) bits' w Z Ek Hp Hl (fun _ _ => eq_refl) H). Qed.
Lemma branch_gated o l ts h bits v bits' w : ~ some_zero bits (so_cond Ccring o) -> is_measure (so_kind Ccring o) = false -> placed c o ts ->
  br l h bits (@gate_action Ccring false n (so_kind Ccring o) ts v) bits' w -> br (o :: l) h bits v bits' w.
Proof. intros Z Em Hp H. exact (branch_gate c o l h ts bits v _ bits' w Z Em Hp (fun _ _ => eq_refl) H). Qed.

Lemma kept_gate k us ts os v i : good_kind Ccring k us -> good_targets n us -> (forall t, In t ts -> (t < n)%N /\ (In t us -> keeps k us t)) -> (i < 2 ^ n)%N ->
  @gate_action Ccring false n k us (kept ts os v) i = kept ts os (@gate_action Ccring false n k us v) i.
Proof.
  intros Hk Hg Ht Hi. unfold kept.
  rewrite (gate_action_ext Ccring false n k us _ (fun j => if shows n j ts os then Cmul C1 (v j) else C0) i Hk Hg Hi); [|intros j _; destruct (shows n j ts os); [ceq; ring|reflexivity]].
  rewrite (gate_shows n k us Hk Hg); auto. destruct (shows n i ts os); [ceq; ring|reflexivity].
Qed.

(** From the branches of one list to those of another, one to one. *)
Definition carries (l l' : list (sop Ccring)) : Prop := forall bits v, exists f : list bool -> list bool,
  (forall h bits' w, br l h bits v bits' w -> br l' (f h) bits v bits' w /\ Permutation h (f h)) /\
  (forall h1 h2 b1 w1 b2 w2, br l h1 bits v b1 w1 -> br l h2 bits v b2 w2 -> f h1 = f h2 -> h1 = h2).

Lemma carries_nil : carries [] [].
Proof. intros bits v. exists (fun h => h). split; [intros; split; auto|auto]. Qed.
Lemma carries_trans l1 l2 l3 : carries l1 l2 -> carries l2 l3 -> carries l1 l3.
Proof.
  intros H H' bits v. destruct (H bits v) as (f & F1 & F2). destruct (H' bits v) as (g & G1 & G2). exists (fun h => g (f h)). split.
  - intros h bits' w Hb. destruct (F1 _ _ _ Hb) as (Hb' & P). destruct (G1 _ _ _ Hb') as (Hb'' & P'). split; [exact Hb''|]. eapply perm_trans; eauto.
  - intros h1 h2 b1 w1 b2 w2 B1 B2 E. apply (F2 h1 h2 b1 w1 b2 w2 B1 B2). eapply G2; [eapply F1; eauto|eapply F1; eauto|exact E].
Qed.
Lemma split_app {A} (os h : list A) k : length os = k -> firstn k (os ++ h) = os /\ skipn k (os ++ h) = h.
Proof. intros <-. split; [rewrite firstn_app, Nat.sub_diag, firstn_all, firstn_O; apply app_nil_r|rewrite skipn_app, Nat.sub_diag, skipn_all; reflexivity]. Qed.

Lemma carries_cons o l l' : wf_op c o -> wf l -> carries l l' -> carries (o :: l) (o :: l').
Proof.
  intros Wo Wl H bits v. destruct (zero_dec bits (so_cond Ccring o)) as [Z|Z].
  { destruct (H bits v) as (f & F1 & F2). exists f. split.
    - intros h bits' w Hb. apply (blocked_branch _ _ _ _ _ _ _ Z) in Hb. destruct (F1 _ _ _ Hb). split; [now apply branch_blocked|auto].
    - intros h1 h2 b1 w1 b2 w2 B1 B2. apply (blocked_branch _ _ _ _ _ _ _ Z) in B1, B2. eauto. }
  destruct (placed_wf Ccring c o Wo) as (ts & _ & Hp & _). destruct (is_measure (so_kind Ccring o)) eqn:Em.
  - destruct (so_kind Ccring o) as [mid st| | | | |] eqn:Eo; try discriminate Em.
    destruct (@pick (list bool) (list bool -> list bool) (list_eq_dec bool_dec)
      (fun os f => (forall h bits' w, br l h (recorded st os bits) (kept ts os v) bits' w -> br l' (f h) (recorded st os bits) (kept ts os v) bits' w /\ Permutation h (f h)) /\
        (forall h1 h2 b1 w1 b2 w2, br l h1 (recorded st os bits) (kept ts os v) b1 w1 -> br l h2 (recorded st os bits) (kept ts os v) b2 w2 -> f h1 = f h2 -> h1 = h2))
      (fun h => h) (outcomes (length ts)) (fun os _ => H _ _)) as (F & HF).
    assert (K : forall os, length os = length ts -> In os (outcomes (length ts))) by (intros os E; now apply in_outcomes).
    exists (fun h => firstn (length ts) h ++ F (firstn (length ts) h) (skipn (length ts) h)). split.
    + intros h bits' w Hb. destruct (measure_branch o l mid st ts h bits v bits' w Wo Wl Z Eo Hp Hb) as (os & h' & -> & Hl & Hb').
      destruct (split_app os h' _ Hl) as (-> & ->). destruct (HF os (K os Hl)) as (F1 & _). destruct (F1 _ _ _ Hb') as (Hb'' & P).
      split; [|now apply Permutation_app_head]. exact (branch_measured o l' mid st ts os _ bits v bits' w Z Eo Hp Hl Hb'').
    + intros h1 h2 b1 w1 b2 w2 B1 B2. destruct (measure_branch o l mid st ts h1 bits v b1 w1 Wo Wl Z Eo Hp B1) as (os1 & h1' & -> & L1 & B1').
      destruct (measure_branch o l mid st ts h2 bits v b2 w2 Wo Wl Z Eo Hp B2) as (os2 & h2' & -> & L2 & B2').
      destruct (split_app os1 h1' _ L1) as (-> & ->). destruct (split_app os2 h2' _ L2) as (-> & ->). intros E.
      apply split_same in E; [|congruence]. destruct E as (<- & E). f_equal. destruct (HF os1 (K os1 L1)) as (_ & F2). eauto.
  - destruct (H bits (@gate_action Ccring false n (so_kind Ccring o) ts v)) as (f & F1 & F2). exists f. split.
    + intros h bits' w Hb. apply (gate_branch o l ts) in Hb; auto. destruct (F1 _ _ _ Hb). split; [now apply branch_gated with ts|auto].
    + intros h1 h2 b1 w1 b2 w2 B1 B2. apply (gate_branch o l ts) in B1; auto. apply (gate_branch o l ts) in B2; auto. eauto.
Qed.

Lemma zero_recorded st os bits l : (forall b, In b (match st with Some bs => bs | None => [] end) -> ~ In b l) -> (some_zero (recorded st os bits) l <-> some_zero bits l).
Proof. intros H. split; apply some_zero_other; intros b Hb; [symmetry|]; apply recorded_other; intros Hb'; exact (H b Hb' Hb). Qed.

Lemma carries_swap o p l : wf_op c o -> wf_op c p -> wf l -> independent o p -> carries (o :: p :: l) (p :: o :: l).
Proof.
  intros Wo Wp Wl Hi bits v. pose proof Hi as (_ & Hop & Hpo & Hww).
  assert (Wpl : wf (p :: l)) by (intros x [<-|Hx]; auto). assert (Wol : wf (o :: l)) by (intros x [<-|Hx]; auto).
  destruct (placed_wf Ccring c o Wo) as (ts & _ & Po & _). destruct (placed_wf Ccring c p Wp) as (us & _ & Pp & _).
  pose proof (placed_shared c Hc o p ts us Hi Po Pp) as Hd.
  assert (Tts : forall t, In t ts -> (t < n)%N /\ (In t us -> keeps (so_kind Ccring p) us t)) by (intros t Ht; split; [exact (placed_below c o ts Po t Ht)|intros Ht'; exact (proj2 (Hd t Ht Ht'))]).
  assert (Tus : forall t, In t us -> (t < n)%N /\ (In t ts -> keeps (so_kind Ccring o) ts t)) by (intros t Ht; split; [exact (placed_below c p us Pp t Ht)|intros Ht'; exact (proj1 (Hd t Ht' Ht))]).
  assert (Id : forall (f : list bool -> list bool), (forall h, f h = h) -> (forall h bits' w, br (o :: p :: l) h bits v bits' w -> br (p :: o :: l) h bits v bits' w) ->
    exists f : list bool -> list bool, (forall h bits' w, br (o :: p :: l) h bits v bits' w -> br (p :: o :: l) (f h) bits v bits' w /\ Permutation h (f h)) /\
      (forall h1 h2 b1 w1 b2 w2, br (o :: p :: l) h1 bits v b1 w1 -> br (o :: p :: l) h2 bits v b2 w2 -> f h1 = f h2 -> h1 = h2)).
  { intros f Hf H. exists f. split; [intros h bits' w Hb; rewrite Hf; auto|intros h1 h2 b1 w1 b2 w2 _ _; now rewrite !Hf]. }
  unfold written in Hop, Hpo, Hww.
  destruct (zero_dec bits (so_cond Ccring o)) as [Zo|Zo], (zero_dec bits (so_cond Ccring p)) as [Zp|Zp].
  - apply (Id (fun h => h)); [auto|]. intros h bits' w Hb. apply blocked_branch in Hb; [|exact Zo]. apply blocked_branch in Hb; [|exact Zp]. now do 2 (apply branch_blocked; [assumption|]).
  - apply (Id (fun h => h)); [auto|]. intros h bits' w Hb. apply blocked_branch in Hb; [|exact Zo]. destruct (is_measure (so_kind Ccring p)) eqn:Mp.
    + destruct (so_kind Ccring p) as [mid st| | | | |] eqn:Ep; try discriminate Mp. destruct (measure_branch p l mid st us h bits v bits' w Wp Wl Zp Ep Pp Hb) as (os & h' & -> & Hl & Hb').
      apply (branch_measured p _ mid st us); auto. apply branch_blocked; [|exact Hb']. apply zero_recorded; [exact Hpo|exact Zo].
    + apply (gate_branch p l us) in Hb; auto. apply branch_gated with us; auto. now apply branch_blocked.
  - apply (Id (fun h => h)); [auto|]. intros h bits' w Hb. apply branch_blocked; [exact Zp|]. destruct (is_measure (so_kind Ccring o)) eqn:Mo.
    + destruct (so_kind Ccring o) as [mid st| | | | |] eqn:Eo; try discriminate Mo. destruct (measure_branch o (p :: l) mid st ts h bits v bits' w Wo Wpl Zo Eo Po Hb) as (os & h' & -> & Hl & Hb').
      apply (branch_measured o _ mid st ts); auto. apply blocked_branch in Hb'; [exact Hb'|]. apply zero_recorded; [exact Hop|exact Zp].
    + apply (gate_branch o (p :: l) ts) in Hb; auto. apply branch_gated with ts; auto. now apply blocked_branch in Hb.
  - destruct (is_measure (so_kind Ccring o)) eqn:Mo, (is_measure (so_kind Ccring p)) eqn:Mp.
    + destruct (so_kind Ccring o) as [mid st| | | | |] eqn:Eo; try discriminate Mo. destruct (so_kind Ccring p) as [mid' st'| | | | |] eqn:Ep; try discriminate Mp.
      set (a := length ts). set (b := length us).
      assert (Two : forall h bits' w, br (o :: p :: l) h bits v bits' w -> exists os os' h', h = os ++ os' ++ h' /\ length os = a /\ length os' = b /\
        br l h' (recorded st' os' (recorded st os bits)) (kept us os' (kept ts os v)) bits' w).
      { intros h bits' w Hb. destruct (measure_branch o (p :: l) mid st ts h bits v bits' w Wo Wpl Zo Eo Po Hb) as (os & h' & -> & Hl & Hb').
        destruct (measure_branch p l mid' st' us h' (recorded st os bits) (kept ts os v) bits' w Wp Wl) as (os' & h'' & -> & Hl' & Hb''); [|exact Ep|exact Pp|exact Hb'|].
        - intros Z. apply Zp. exact (proj1 (zero_recorded st os bits _ Hop) Z).
        - exists os, os', h''. auto. }
      exists (fun h => firstn b (skipn a h) ++ firstn a h ++ skipn b (skipn a h)). split.
      * intros h bits' w Hb. destruct (Two _ _ _ Hb) as (os & os' & h' & -> & L1 & L2 & Hb').
        destruct (split_app os (os' ++ h') a L1) as (-> & ->). destruct (split_app os' h' b L2) as (-> & ->).
        split; [|apply Permutation_app_swap_app]. apply (branch_measured p _ mid' st' us); auto. apply (branch_measured o _ mid st ts); auto.
        { intros Z. apply Zo. exact (proj1 (zero_recorded st' os' bits _ Hpo) Z). }
        apply (branch_ext c Hc) with (v := kept us os' (kept ts os v)).
        -- eapply branch_recorded; [exact Hb'|]. intros x. apply recorded_swap. exact Hww.
        -- exact Wl.
        -- intros i _. unfold kept. destruct (shows n i ts os), (shows n i us os'); reflexivity.
      * intros h1 h2 b1 w1 b2 w2 B1 B2. destruct (Two _ _ _ B1) as (os1 & os1' & h1' & -> & L1 & L1' & _). destruct (Two _ _ _ B2) as (os2 & os2' & h2' & -> & L2 & L2' & _).
        destruct (split_app os1 (os1' ++ h1') a L1) as (-> & ->). destruct (split_app os1' h1' b L1') as (-> & ->).
        destruct (split_app os2 (os2' ++ h2') a L2) as (-> & ->). destruct (split_app os2' h2' b L2') as (-> & ->). intros E.
        apply split_same in E; [|congruence]. destruct E as (<- & E). apply split_same in E; [|congruence]. now destruct E as (<- & <-).
    + destruct (so_kind Ccring o) as [mid st| | | | |] eqn:Eo; try discriminate Mo. destruct (placed_good Ccring c p us Wp Hc Pp Mp) as (Gp & Kp).
      apply (Id (fun h => h)); [auto|]. intros h bits' w Hb. destruct (measure_branch o (p :: l) mid st ts h bits v bits' w Wo Wpl Zo Eo Po Hb) as (os & h' & -> & Hl & Hb').
      apply (gate_branch p l us) in Hb'; auto; [|intros Z; apply Zp; exact (proj1 (zero_recorded st os bits _ Hop) Z)].
      apply branch_gated with us; auto. apply (branch_measured o _ mid st ts); auto. apply (branch_ext c Hc l h' _ _ bits' w Hb'); [exact Wl|].
      intros i Hil. symmetry. now apply kept_gate.
    + destruct (so_kind Ccring p) as [mid st| | | | |] eqn:Ep; try discriminate Mp. destruct (placed_good Ccring c o ts Wo Hc Po Mo) as (Go & Ko).
      apply (Id (fun h => h)); [auto|]. intros h bits' w Hb. apply (gate_branch o (p :: l) ts) in Hb; auto.
      destruct (measure_branch p l mid st us h bits _ bits' w Wp Wl Zp Ep Pp Hb) as (os & h' & -> & Hl & Hb').
      apply (branch_measured p _ mid st us); auto. apply branch_gated with ts; auto; [intros Z; apply Zo; exact (proj1 (zero_recorded st os bits _ Hpo) Z)|].
      apply (branch_ext c Hc l h' _ _ bits' w Hb'); [exact Wl|]. intros i Hil. now apply kept_gate.
    + destruct (placed_good Ccring c o ts Wo Hc Po Mo) as (Go & Ko). destruct (placed_good Ccring c p us Wp Hc Pp Mp) as (Gp & Kp).
      apply (Id (fun h => h)); [auto|]. intros h bits' w Hb. apply (gate_branch o (p :: l) ts) in Hb; auto. apply (gate_branch p l us) in Hb; auto.
      apply branch_gated with us; auto. apply branch_gated with ts; auto. apply (branch_ext c Hc l h _ _ bits' w Hb); [exact Wl|].
      intros i Hil. now apply gates_shared.
Qed.

Lemma reordered_carries both l l' : reordered both l l' -> wf l -> carries l l'.
Proof.
  induction 1 as [|o l l' H IH|o p l Hi Hb|l1 l2 l3 H1 IH1 H2 IH2]; intros Hl.
  - exact carries_nil.
  - apply carries_cons; [apply Hl; now left|intros x Hx; apply Hl; now right|]. apply IH. intros x Hx. apply Hl. now right.
  - apply carries_swap; auto; try (apply Hl; cbn; auto; fail). intros x Hx. apply Hl. cbn. auto.
  - apply carries_trans with l2; [now apply IH1|]. apply IH2. intros o Ho. apply Hl. eapply reordered_in; eauto.
Qed.

Lemma NoDup_map_on {A B} (f : A -> B) l : NoDup l -> (forall x y, In x l -> In y l -> f x = f y -> x = y) -> NoDup (map f l).
Proof.
  induction 1 as [|a l Ha H IH]; intros Hf; [constructor|]. cbn. constructor; [|apply IH; intros; apply Hf; cbn; auto].
  intros Hi. apply in_map_iff in Hi. destruct Hi as (y & E & Hy). apply Hf in E; cbn; auto. now subst.
Qed.

(** The branches of both lists, paired. *)
Theorem carries_paired l l' : carries l l' -> carries l' l -> (forall o, In o l -> wf_op c o /\ unitary_kind (so_kind Ccring o)) ->
  (forall o, In o l' -> wf_op c o /\ unitary_kind (so_kind Ccring o)) -> forall bits v,
  exists L : list (list bool * list bool * R),
    NoDup (map (fun x => fst (fst x)) L) /\ NoDup (map (fun x => snd (fst x)) L) /\
    (forall h, In h (map (fun x => fst (fst x)) L) <-> exists bits' w, br l h bits v bits' w) /\
    (forall h, In h (map (fun x => snd (fst x)) L) <-> exists bits' w, br l' h bits v bits' w) /\
    (forall h h' p, In (h, h', p) L -> Permutation h h' /\ forall bits' w, br l h bits v bits' w -> br l' h' bits v bits' w /\ weight n w = p) /\
    Rsum L snd = weight n v.
Proof.
  intros H H' Hl Hl' bits v. destruct (H bits v) as (f & F1 & F2). destruct (H' bits v) as (g & G1 & G2).
  destruct (branches_total c Hc l Hl bits v) as (B & B1 & B2 & B3 & B4). destruct (branches_total c Hc l' Hl' bits v) as (D & D1 & D2 & _ & _).
  assert (Nf : NoDup (map f (map fst B))).
  { apply NoDup_map_on; [exact B1|]. intros x y Hx Hy. apply B2 in Hx, Hy. destruct Hx as (b1 & w1 & Hx), Hy as (b2 & w2 & Hy). eauto. }
  assert (Ng : NoDup (map g (map fst D))).
  { apply NoDup_map_on; [exact D1|]. intros x y Hx Hy. apply D2 in Hx, Hy. destruct Hx as (b1 & w1 & Hx), Hy as (b2 & w2 & Hy). eauto. }
  assert (If : incl (map f (map fst B)) (map fst D)).
  { intros y Hy. apply in_map_iff in Hy. destruct Hy as (x & <- & Hx). apply B2 in Hx. destruct Hx as (b1 & w1 & Hx). apply D2. exists b1, w1. now apply F1. }
  assert (Ig : incl (map g (map fst D)) (map fst B)).
  { intros y Hy. apply in_map_iff in Hy. destruct Hy as (x & <- & Hx). apply D2 in Hx. destruct Hx as (b1 & w1 & Hx). apply B2. exists b1, w1. now apply G1. }
  assert (Jf : incl (map fst D) (map f (map fst B))).
  { apply NoDup_length_incl; [exact Nf| |exact If]. pose proof (NoDup_incl_length Ng Ig) as X. rewrite !map_length in *. exact X. }
  exists (map (fun x => (fst x, f (fst x), snd x)) B).
  assert (E1 : map (fun x => fst (fst x)) (map (fun x : list bool * R => (fst x, f (fst x), snd x)) B) = map fst B) by (rewrite map_map; reflexivity).
  assert (E2 : map (fun x => snd (fst x)) (map (fun x : list bool * R => (fst x, f (fst x), snd x)) B) = map f (map fst B)) by (rewrite !map_map; reflexivity).
  rewrite E1, E2. split; [exact B1|]. split; [exact Nf|]. split; [exact B2|]. split; [|split].
  - intros h. rewrite <- D2. split; [apply If|apply Jf].
  - intros h h' p Hp. apply in_map_iff in Hp. destruct Hp as ([x q] & E & Hx). cbn in E. injection E as <- <- <-.
    assert (Hi : In x (map fst B)) by (apply in_map_iff; exists (x, q); auto). split.
    + apply B2 in Hi. destruct Hi as (b1 & w1 & Hb). now apply (F1 x b1 w1).
    + intros bits' w Hb. split; [now apply F1|]. symmetry. eapply B3; eauto.
  - rewrite <- B4. clear. induction B as [|x B IH]; [reflexivity|]. cbn. unfold Rsum in *. cbn. now rewrite IH.
Qed.
Theorem reordered_paired both l l' : reordered both l l' -> (forall o, In o l -> wf_op c o /\ unitary_kind (so_kind Ccring o)) -> forall bits v,
  exists L : list (list bool * list bool * R),
    NoDup (map (fun x => fst (fst x)) L) /\ NoDup (map (fun x => snd (fst x)) L) /\
    (forall h, In h (map (fun x => fst (fst x)) L) <-> exists bits' w, br l h bits v bits' w) /\
    (forall h, In h (map (fun x => snd (fst x)) L) <-> exists bits' w, br l' h bits v bits' w) /\
    (forall h h' p, In (h, h', p) L -> Permutation h h' /\ forall bits' w, br l h bits v bits' w -> br l' h' bits v bits' w /\ weight n w = p) /\
    Rsum L snd = weight n v.
Proof.
  intros H Hl. assert (Hl' : forall o, In o l' -> wf_op c o /\ unitary_kind (so_kind Ccring o)) by (intros o Ho; apply Hl; eapply reordered_in; eauto).
  apply carries_paired; auto; [apply (reordered_carries both l l' H)|apply (reordered_carries both l' l (reordered_sym _ _ _ H))]; intros o Ho; [exact (proj1 (Hl o Ho))|exact (proj1 (Hl' o Ho))].
Qed.
End Branches.

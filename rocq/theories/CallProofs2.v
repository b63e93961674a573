(** Proofs for C74: a circuit repeated on other qubits of a larger circuit acts as its operator on these qubits. *)
From Coq Require Import List NArith Arith Bool Lia Ring.
From Verif Require Import Py CRing KernelModel KernelSpec KernelBits KernelProofs KernelProofs2 SimModel SimSpec SimProofs SimProofs2
  UnitarySpec CallSpec CallProofs.
Import ListNotations.
Local Open Scope N_scope.

Section Runs.
Variable K : cring.
Add Ring KringCall3 : (r_theory K).
Variable le : bool.

Lemma not_zero bits (o : sop K) : so_cond K o = [] -> ~ some_zero bits (so_cond K o).
Proof. intros -> (b & [] & _). Qed.

(** ** Linearity *)
Lemma runs_linear c bits ops (l : list N) (x : N -> K) : NoDup (sc_qubits K c) ->
  (forall o, In o ops -> wf_op c o /\ is_measure (so_kind K o) = false /\ so_cond K o = []) ->
  forall a b (A B : N -> N -> K), runs le c bits ops a b -> (forall s, In s l -> runs le c bits ops (A s) (B s)) ->
  (forall i, i < 2 ^ num_qubits K c -> a i = sumf l (fun s => rmul (x s) (A s i))) ->
  forall i, i < 2 ^ num_qubits K c -> b i = sumf l (fun s => rmul (x s) (B s i)).
Proof.
  intros Hn. induction ops as [|o ops IH]; intros Hops a b A B H1 H2 Ha i Hi.
  - inversion H1 as [? ? A1| |]; subst. rewrite A1, Ha by exact Hi. apply sumf_ext. intros s Hs. specialize (H2 s Hs).
    inversion H2 as [? ? A2| |]; subst. now rewrite A2.
  - destruct (Hops o (or_introl eq_refl)) as (Hw & Hm & Hc). pose proof (not_zero bits o Hc) as Hz.
    inversion H1 as [| |? ? ts ? a' ? _ Hp Ha' Hr]; subst; [contradiction|].
    destruct (placed_good K c o ts Hw Hn Hp Hm) as [Hg Hk]. destruct (good_kop K _ _ Hk) as (G & T & Cs & E).
    destruct (kop_lt K _ _ _ _ _ _ E Hg) as (_ & _ & Hl).
    refine (IH (fun y Hy => Hops y (or_intror Hy)) a' b (fun s => gate_action le (num_qubits K c) (so_kind K o) ts (A s)) B Hr _ _ i Hi).
    + intros s Hs. specialize (H2 s Hs). inversion H2 as [| |? ? ts2 ? a2 ? _ Hp2 Ha2 Hr2]; subst; [contradiction|].
      assert (ts2 = ts) by (eapply placed_unique; eauto). subst ts2.
      clear -Ha2 Hr2 Hops Hn. revert Hr2. generalize (gate_action le (num_qubits K c) (so_kind K o) ts (A s)) Ha2. clear Ha2. intros g Hg Hr.
      assert (Hops' : forall y, In y ops -> wf_op c y /\ is_measure (so_kind K y) = false /\ so_cond K y = []) by (intros; apply Hops; now right).
      destruct ops as [|p ops].
      * inversion Hr as [? ? A1| |]; subst. constructor. intros i Hi. rewrite A1, Hg by exact Hi. reflexivity.
      * destruct (Hops' p (or_introl eq_refl)) as (Hw & Hm & Hc).
        inversion Hr as [| |? ? ts3 ? a3 ? Hz Hp3 Ha3 Hr3]; subst; [exfalso; eapply (not_zero bits p Hc); eassumption|].
        eapply runs_gate; [exact Hz|exact Hp3| |exact Hr3]. intros i Hi. rewrite Ha3 by exact Hi.
        destruct (placed_good K c p ts3 Hw Hn Hp3 Hm) as [Hg3 Hk3]. now apply gate_action_ext.
    + intros j Hj. rewrite Ha' by exact Hj. rewrite (gate_action_ext K le _ _ ts a _ j Hk Hg Hj Ha).
      rewrite (kop_action K le _ _ ts G T Cs) by assumption. rewrite op_apply_sum. apply sumf_ext. intros s _.
      now rewrite (kop_action K le _ _ ts G T Cs).
Qed.

Lemma runs_exist c bits ops : (forall o, In o ops -> wf_op c o /\ so_cond K o = []) -> forall v, exists w, runs le c bits ops v w.
Proof.
  induction ops as [|o ops IH]; intros Hops v; [exists v; now constructor|].
  destruct (Hops o (or_introl eq_refl)) as (Hw & Hc). destruct (placed_wf K c o Hw) as (ts & _ & Hp & _).
  destruct (IH (fun y Hy => Hops y (or_intror Hy)) (gate_action le (num_qubits K c) (so_kind K o) ts v)) as (w & Hr).
  exists w. eapply runs_gate; [now apply not_zero|exact Hp| |exact Hr]. reflexivity.
Qed.

Lemma runs_app c bits ops1 ops2 : forall v w, runs le c bits (ops1 ++ ops2) v w ->
  (forall o, In o (ops1 ++ ops2) -> wf_op c o /\ is_measure (so_kind K o) = false) -> NoDup (sc_qubits K c) ->
  exists u, runs le c bits ops1 v u /\ runs le c bits ops2 u w.
Proof.
  induction ops1 as [|o ops1 IH]; intros v w H Ho Hn.
  - exists v. split; [now constructor|exact H].
  - cbn in H. assert (Ho' : forall x, In x (ops1 ++ ops2) -> wf_op c x /\ is_measure (so_kind K x) = false) by (intros; apply Ho; now right).
    inversion H as [|? ? ? ? Hz Hr|? ? ts ? v' ? Hz Hp Ha Hr]; subst.
    + destruct (IH v w Hr Ho' Hn) as (u & H1 & H2). exists u. split; [now apply runs_skip|exact H2].
    + destruct (IH v' w Hr Ho' Hn) as (u & H1 & H2). exists u. split; [eapply runs_gate; eauto|exact H2].
Qed.

(** ** Repeating a circuit on other qubits *)
Variables (st sd : scirc K) (ids : list nat) (ts : list N).
Hypothesis Hst : NoDup (sc_qubits K st).
Hypothesis Hsd : NoDup (sc_qubits K sd).
Hypothesis Hids : NoDup ids.
Hypothesis Hlen : length ids = length (sc_qubits K st).
Hypothesis Hts : Forall2 (fun q t => nth_error (sc_qubits K sd) (N.to_nat t) = Some q) ids ts.
Let n := num_qubits K sd.
Let k := N.of_nat (length ts).

Record image (o o' : sop K) : Prop := {
  im_kind : so_kind K o' = so_kind K o;
  im_cond : so_cond K o' = [];
  im_qubits : exists qs qs', so_qubits K o = Some qs /\ so_qubits K o' = Some qs' /\
    Forall2 (fun q q' => exists j, nth_error (sc_qubits K st) j = Some q /\ nth_error ids j = Some q') qs qs'
}.

Lemma ts_length : length ts = length ids.
Proof. generalize Hts. generalize ids ts. clear. intros l l' F. induction F; cbn; congruence. Qed.
Lemma k_num : num_qubits K st = k.
Proof. unfold num_qubits, k. rewrite ts_length, Hlen. reflexivity. Qed.
Lemma ts_lt t : In t ts -> t < n.
Proof.
  unfold n. generalize Hts. generalize ids ts. clear. intros l l' F H. induction F as [|q t' l l' E _ IH]; [destruct H|]. destruct H as [->|H]; [|auto].
  assert (L : (N.to_nat t < length (sc_qubits K sd))%nat) by (apply nth_error_Some; congruence). unfold num_qubits. lia.
Qed.
Lemma ts_nodup : NoDup ts.
Proof.
  generalize Hts Hids. generalize ids ts. clear. intros l l' F. induction F as [|q t l l' E F IH]; intros Hd; [constructor|].
  inversion Hd; subst. constructor; [|auto].
  intros H. clear -F H E H1. apply H1. clear H1. induction F as [|q' t' l l' E' _ IH]; [destruct H|]. destruct H as [->|H]; [left; congruence|right; auto].
Qed.
Lemma ts_nth j q : nth_error ids j = Some q -> nth_error (sc_qubits K sd) (N.to_nat (f ts (N.of_nat j))) = Some q.
Proof.
  unfold f. rewrite Nat2N.id. revert j. generalize Hts. generalize ids ts. clear. intros l l' F. induction F as [|q' t l l' E _ IH]; intros [|j] H; try discriminate; cbn in *; [congruence|auto].
Qed.
Lemma image_placed o o' l : image o o' -> placed st o l -> placed sd o' (map (f ts) l).
Proof.
  intros [_ _ (qs & qs' & E1 & E2 & F)] (qs2 & E3 & F'). rewrite E1 in E3. injection E3 as <-. exists qs'. split; [exact E2|].
  clear E1 E2. revert l F'. induction F as [|q q' qs qs' (j & J1 & J2) _ IH]; intros l F'; inversion F' as [|? t ? l' Ht F'']; subst; [constructor|].
  cbn. constructor; [|auto]. assert (j = N.to_nat t).
  { eapply (proj1 (NoDup_nth_error _) Hst); [apply nth_error_Some; congruence|congruence]. }
  subst j. rewrite <- (ts_nth _ _ J2). now rewrite N2Nat.id.
Qed.

Lemma runs_slice bits bits' tops new : Forall2 image tops new ->
  (forall o, In o tops -> wf_op st o /\ is_measure (so_kind K o) = false /\ so_cond K o = []) ->
  forall u w i, i < 2 ^ n -> runs le sd bits new u w ->
    runs le st bits' tops (fun r => u (put le n ts i r)) (fun r => w (put le n ts i r)).
Proof.
  intros F. induction F as [|o o' tops new I F IH]; intros Hops u w i Hi H.
  - inversion H as [? ? A| |]; subst. constructor. intros r _. apply A. now apply (put_lt le n ts ts_lt).
  - destruct (Hops o (or_introl eq_refl)) as (Hw & Hm & Hc). destruct (placed_wf K st o Hw) as (l & _ & Hp & _).
    inversion H as [|? ? ? ? Hz Hr|? ? ts2 ? u' ? Hz Hp2 Ha Hr]; subst.
    + now apply (not_zero bits o' (im_cond _ _ I)) in Hz.
    + assert (ts2 = map (f ts) l) by (eapply placed_unique; [exact Hsd|exact Hp2|now apply (image_placed o)]). subst ts2.
      destruct (placed_good K st o l Hw Hst Hp Hm) as [Hg Hk].
      apply (runs_gate le st bits' o tops l _ (fun r => u' (put le n ts i r))).
      * now apply not_zero.
      * exact Hp.
      * intros r Hr'. rewrite Ha by now apply (put_lt le n ts ts_lt). rewrite (im_kind _ _ I). rewrite k_num in *.
        fold n. apply (gate_action_put K le n ts ts_nodup ts_lt); assumption.
      * apply IH; auto. intros; apply Hops. now right.
Qed.

Theorem image_acts bits tops new M : Forall2 image tops new ->
  (forall o, In o tops -> wf_op st o /\ is_measure (so_kind K o) = false /\ so_cond K o = []) ->
  (forall s, s < 2 ^ num_qubits K st -> runs le st (fun _ => None) tops (basis s) (fun r => M r s)) ->
  forall u w, runs le sd bits new u w -> forall i, i < 2 ^ n -> w i = acts_on le n M ts u i.
Proof.
  intros F Hops HM u w H i Hi.
  pose proof (runs_slice bits (fun _ => None) tops new F Hops u w i Hi H) as Hs.
  set (r := read le n i (order le ts)).
  assert (Hr : r < 2 ^ num_qubits K st).
  { rewrite k_num. unfold r, k. rewrite <- (order_length le ts). exact (read_lt (mkParams le n [] []) (order le ts) i). }
  pose proof (runs_linear st (fun _ => None) tops (Nrange (2 ^ num_qubits K st)) (fun s => u (put le n ts i s)) Hst Hops _ _ basis (fun s r => M r s) Hs) as L.
  assert (E : w (put le n ts i r) = sumf (Nrange (2 ^ num_qubits K st)) (fun s => rmul (u (put le n ts i s)) (M r s))).
  { apply (L (fun s Hx => HM s (proj1 (In_Nrange _ _) Hx))); [|exact Hr]. intros j Hj. cbn beta.
    rewrite (sumf_single K _ _ j).
    - unfold basis. rewrite N.eqb_refl. ring.
    - apply NoDup_Nrange.
    - now apply In_Nrange.
    - intros s _ Hne. unfold basis. destruct (N.eqb_spec j s); [congruence|]. ring. }
  unfold r in E at 1. rewrite (put_get le n ts ts_nodup ts_lt) in E. rewrite E. unfold acts_on, op_apply. cbn [forallb].
  fold (order le ts). rewrite order_length, k_num. apply sumf_ext. intros s _. unfold r, put. ring.
Qed.
Lemma image_wf tops new : Forall2 image tops new -> (forall o, In o tops -> wf_op st o /\ is_measure (so_kind K o) = false /\ so_cond K o = []) ->
  forall o', In o' new -> wf_op sd o' /\ is_measure (so_kind K o') = false /\ so_cond K o' = [].
Proof.
  intros F. induction F as [|o o' tops new I F IH]; intros Hops x []; [subst x|now apply IH; [intros; apply Hops; now right|]].
  destruct (Hops o (or_introl eq_refl)) as ((qs & E & Hin & Hnd & Ha & Hs) & Hm & _).
  destruct I as [Ik Ic (qs1 & qs' & E1 & E2 & F1)]. rewrite E in E1. injection E1 as <-.
  split; [|split; [now rewrite Ik|exact Ic]]. exists qs'. split; [exact E2|]. rewrite Ik.
  assert (Ln : length qs' = length qs) by (clear -F1; induction F1; cbn; congruence).
  split; [|split; [|split; [|exact Hs]]].
  - intros q Hq. clear -F1 Hq Hts. induction F1 as [|a b l l' (j & _ & J) _ IH]; [destruct Hq|]. destruct Hq as [->|Hq]; [|auto].
    revert j J. generalize Hts. generalize ids ts. clear. intros l l' F. induction F as [|q' t l l' E _ IH]; intros [|j] J; try discriminate; cbn in J; [|eauto].
    injection J as ->. eapply nth_error_In, E.
  - intros _. specialize (Hnd Hm). clear -F1 Hnd Hst Hids Hlen. induction F1 as [|a b l l' (j & J1 & J2) F IH]; [constructor|].
    inversion Hnd; subst. constructor; [|auto]. intros Hb. apply H1. clear -F Hb J1 J2 Hids.
    induction F as [|a' b' l l' (j' & J1' & J2') _ IH]; [destruct Hb|]. destruct Hb as [->|Hb]; [left|right; auto].
    assert (j = j') by (eapply (proj1 (NoDup_nth_error _) Hids); [apply nth_error_Some; congruence|congruence]). subst. congruence.
  - intros a Hk. rewrite Ln. now apply Ha.
Qed.
End Runs.

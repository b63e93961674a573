(** Loading one gate, continued. *)
From Coq Require Import List ZArith String Bool Arith Lia.
From Verif Require Import Py QirModel LinkModel RegisterModel RegisterSpec RegisterProofs WorldModel WorldSpec WorldSpec4 WorldReg WorldInv WorldInv2 WorldInv3 WorldInv4 WorldInv5 WorldInv6 WorldInv7 WorldWf2 WorldOps ExportSpec LoadModel LoadSpec LoadProofs LoadProofs2 LoadProofs3 LoadProofs4 LoadProofs5.
Import ListNotations.
Local Open Scope nat_scope.

Section Steps.
Variable P : Type.
Variable ptrue : P -> bool.
Variable peqb : P -> P -> bool.
Variable more : list cls.
Notation world := (world P).
Notation M := (WorldModel.M P).
Notation ok := (both_ok P ptrue peqb).
Notation ended := (ended P ptrue peqb more).
Variable c : nat.
Notation loaded := (loaded P c).
Notation alike := (alike P c).

(** ** The classes *)
Definition known (kx : cls) : Prop := tame kx /\ (has_params (k_kind kx) = false -> k_nparams kx = None).
Lemma library_known : Forall (fun x => known x /\ (nonzero (k_numq x) = true \/ k_numq x = None)) library_classes.
Proof. repeat constructor; cbn; try discriminate; auto; try (right; reflexivity); left; reflexivity. Qed.
Lemma index_found l n k x : NoDup (map k_name l) -> nth_error l k = Some x -> k_name x = n -> index_of n l = Some k.
Proof.
  revert k. induction l as [|y l IH]; intros [|k] Hd H Hn; cbn in *; try discriminate.
  - injection H as ->. subst n. now rewrite String.eqb_refl.
  - inversion Hd; subst. destruct (String.eqb_spec (k_name x) (k_name y)) as [E|E].
    + exfalso. apply H2. rewrite <- E. apply in_map. eapply nth_error_In; eauto.
    + now rewrite (IH k H3 H eq_refl).
Qed.
Lemma library_names : NoDup (map k_name library_classes).
Proof. cbn. repeat (constructor; [cbn; intuition discriminate|]). constructor. Qed.

Lemma ended_class (w : world) k x : ended w -> nth_error library_classes k = Some x -> exists kx, nth_error (w_cls w) k = Some kx /\ same_cls x kx.
Proof.
  intros (p & _ & <-) H. apply (g_cls _ _ _ (kept_run P ptrue peqb p (start P (library_classes ++ more)%list))). cbn [start w_cls]. rewrite nth_error_app1; [exact H|]. apply nth_error_Some. congruence.
Qed.
Lemma same_known x kx : known x -> nonzero (k_numq x) = true \/ k_numq x = None -> same_cls x kx -> known kx.
Proof.
  intros [H1 H2] H3 (S1 & S2 & S3 & S4 & S5 & S6). split; [|now rewrite S2, S5].
  unfold tame. destruct S6 as [->|(_ & _ & a & b & _ & _ & ->)]; [exact H1|discriminate].
Qed.
Lemma named_known (w : world) n kx : ended w -> named_class P w n kx -> exists k, class_index n = Some k /\ nth_error (w_cls w) k = Some kx /\ known kx /\
  exists x, nth_error library_classes k = Some x /\ k_name x = n /\ k_nparams x = k_nparams kx.
Proof.
  intros E (k & x & H1 & H2 & H3). exists k. split; [exact (index_found _ _ _ _ library_names H1 H2)|]. split; [exact H3|].
  destruct (ended_class w k x E H1) as (kx' & H4 & H5). rewrite H3 in H4. injection H4 as <-.
  pose proof library_known as L. rewrite Forall_forall in L. destruct (L x) as [A B]; [eapply nth_error_In; eauto|].
  split; [eapply same_known; eauto|]. exists x. destruct H5 as (_ & _ & _ & _ & -> & _). auto.
Qed.

Lemma ended_prim (w : world) x : ended w -> small P w -> nth_error (w_circ w) c = Some x -> Forall prim (circuit_qubits x).
Proof.
  intros E S H. destruct (ended_inv P ptrue peqb more w E S) as (J & _). destruct (JQ_nth _ _ _ _ J H) as [A _].
  eapply Forall_impl; [|exact (ro_good _ _ A)]. intros v Hv. eapply gq_prim; exact Hv.
Qed.

Lemma F2_impl {A B} (R R' : A -> B -> Prop) l l' : (forall a b, R a b -> R' a b) -> Forall2 R l l' -> Forall2 R' l l'.
Proof. induction 2; constructor; auto. Qed.
Lemma maxi_le l j : In j l -> j <= maxi l.
Proof. induction l as [|i l IH]; intros []; cbn; subst; [lia|]. specialize (IH H). unfold maxi in IH. lia. Qed.
Lemma found l js : (forall j, In j js -> j < List.length l) -> exists qs : list item, Forall2 (fun j q => nth_error l j = Some q) js qs.
Proof.
  induction js as [|j js IH]; intros H; [exists []; constructor|]. destruct IH as (qs & F); [auto with datatypes|].
  destruct (nth_error l j) as [q|] eqn:E; [|apply nth_error_None in E; specialize (H j (or_introl eq_refl)); lia]. exists (q :: qs). now constructor.
Qed.

(** What [make] does is a construction or an exception. *)
Lemma make_script (w : world) n k kx ps r qs l : class_index n = Some k -> nth_error (w_cls w) k = Some kx ->
  pick P r qs w = (w, Ok l) ->
  exists s, run ptrue peqb s w = make P ptrue n ps r qs w /\ (clear P (fst (make P ptrue n ps r qs w)) -> executes P ptrue peqb ok s w).
Proof.
  intros Hn Hk Hp. unfold make. rewrite Hn, (bind_ok _ _ _ _ _ _ Hp), (bind_ok _ _ _ _ _ _ (get_cls_some P _ _ _ Hk)).
  assert (A : forall pa qa, exists s, run ptrue peqb s w = unit_of (construct ptrue k pa qa) w /\ (clear P (fst (unit_of (construct ptrue k pa qa) w)) -> executes P ptrue peqb ok s w)).
  { intros pa qa. exists (Do (CConstruct k pa qa)). split; [reflexivity|]. intros C. cbn [executes]. split; [now apply own_any|]. repeat (split; [exact Logic.I|]). exact C. }
  assert (B : exists s, run ptrue peqb s w = raise TypeError w /\ (clear P (fst (raise (A := unit) TypeError w)) -> executes P ptrue peqb ok s w)).
  { exists (Raise TypeError). split; [reflexivity|]. intros _. exact Logic.I. }
  destruct (k_kind kx), ps as [|p1 [|p2 [|p3 [|p4 ps]]]]; auto.
Qed.

Lemma inside_new (w : world) x a l y os : inside P w c x a -> inside P (set_circ (set_op w l) (set_nth c (with_ops x os) (w_circ w))) c (with_ops x os) a /\ y = y :> nat.
Proof. intros [H1 H2 H3 H4 H5 H6 H7 H8]. split; [|reflexivity]. constructor; auto. eapply set_nth_same; exact H1. Qed.

Lemma holds_gate_mono (w : world) x w' x' g o os : loaded w x w' x' os -> holds_gate P w x g o -> holds_gate P w' x' g o.
Proof.
  intros [A1 (zs & A2) (ls & A3 & A4) _ _ _ _ _ _ _]. destruct g as [[n ps] js]. intros (y & kx & l & H1 & H2 & H3 & H4 & H5 & H6 & H7 & H8).
  exists y, kx, l. rewrite A2. split; [rewrite nth_error_app1; [exact H1|]; apply nth_error_Some; congruence|]. repeat (split; [assumption|]). split; [|auto].
  rewrite A4. eapply F2_impl; [|exact H5]. cbn. intros j q Hj. rewrite nth_error_app1; [exact Hj|]. apply nth_error_Some. congruence.
Qed.

Lemma gate_step (w : world) x n ps qs kx : ended w -> idle P w c x -> named_class P w n kx ->
  fits (c_q x) \/ S (maxi qs) <= List.length (circuit_qubits x) ->
  ssize_ok (zn (List.length (w_qubit w) + S (maxi qs)) + 1) = true -> ssize_ok (zn (List.length (w_bit w)) + 1) = true ->
  exists w' x' os r, load_gate P ptrue c n ps qs w = (w', r) /\ ended w' /\ idle P w' c x' /\ loaded w x w' x' os /\
    (fits (c_q x) -> fits (c_q x')) /\ s_regs (c_b x') = s_regs (c_b x) /\ w_bit w' = w_bit w /\
    List.length (circuit_qubits x') = Nat.max (List.length (circuit_qubits x)) (S (maxi qs)) /\
    match refusal kx (List.length ps) (List.length qs) with
    | None => r = Ok tt /\ exists o, os = [o] /\ holds_gate P w' x' (n, ps, qs) o
    | Some e => r = Err e /\ os = []
    end.
Proof.
  intros E I Nc F S1 S2.
  assert (Sm : small P w).
  { split; [|exact S2]. unfold ssize_ok in *. apply andb_true_iff in S1. rewrite andb_true_iff, !Z.leb_le, !Z.ltb_lt in *. lia. }
  destruct (qubits_step P ptrue peqb more c w x E Sm I) as (w1 & x1 & r1 & R1 & E1 & I1 & A1 & Rr1 & C1).
  assert (Nq : WorldModel.num_qubits c w = (w1, Ok (List.length (circuit_qubits x)))).
  { unfold WorldModel.num_qubits. rewrite (bind_ok _ _ _ _ _ _ R1). unfold ret. now rewrite (rep_stop _ _ Rr1), C1. }
  assert (Rep : exists w2 x2, repeatM P (S (maxi qs) - List.length (circuit_qubits x)) (add_qubit c ANone LNone) w1 = (w2, Ok tt) /\ ended w2 /\ idle P w2 c x2 /\ (fits (c_q x) -> fits (c_q x2)) /\ s_regs (c_b x2) = s_regs (c_b x) /\
     loaded w1 x1 w2 x2 [] /\ List.length (w_qubit w2) = List.length (w_qubit w) + (S (maxi qs) - List.length (circuit_qubits x)) /\ w_bit w2 = w_bit w).
  { destruct (Nat.le_gt_cases (S (maxi qs)) (List.length (circuit_qubits x))) as [H|H].
    - exists w1, x1. replace (S (maxi qs) - List.length (circuit_qubits x)) with 0 by lia. cbn [repeatM]. split; [reflexivity|]. split; [exact E1|]. split; [exact I1|].
      destruct A1. split; [|split; [exact al_b|split; [apply loaded_refl|split; [rewrite al_qubit; lia|exact al_bit]]]].
      unfold fits. now rewrite al_q.
    - destruct F as [F|F]; [|lia]. destruct (add_qubits P ptrue peqb more c (S (maxi qs) - List.length (circuit_qubits x)) w1 x1 E1 I1) as (w2 & x2 & H1 & H2 & H3 & H4 & H5 & H6 & H7 & H8).
      + unfold fits. destruct A1. now rewrite al_q.
      + rewrite (al_qubit _ _ _ _ _ _ A1). unfold ssize_ok in *. apply andb_true_iff in S1. rewrite andb_true_iff, !Z.leb_le, !Z.ltb_lt in *. lia.
      + now rewrite (al_bit _ _ _ _ _ _ A1).
      + exists w2, x2. split; [exact H1|]. split; [exact H2|]. split; [exact H3|]. split; [auto|]. split; [rewrite H5; apply A1|]. split; [exact H6|]. split; [rewrite H7, (al_qubit _ _ _ _ _ _ A1); reflexivity|].
        rewrite H8. apply A1. }
  destruct Rep as (w2 & x2 & R2 & E2 & I2 & F2 & B2 & L2 & N2 & W2).
  assert (L02 : loaded w x w2 x2 []) by exact (loaded_trans P c _ _ _ _ _ _ [] [] (alike_loaded P c _ _ _ _ A1) L2).
  assert (Len : List.length (circuit_qubits x2) = Nat.max (List.length (circuit_qubits x)) (S (maxi qs))).
  { destruct L02 as [_ _ (ls & H1 & H2) _ _ _ _ _ _ _]. rewrite H1, app_length in N2. rewrite H2, app_length, map_length, seq_length. lia. }
  assert (Sm2 : small P w2).
  { split; [|now rewrite W2]. rewrite N2. unfold ssize_ok in *. apply andb_true_iff in S1. rewrite andb_true_iff, !Z.leb_le, !Z.ltb_lt in *. lia. }
  destruct (with_step P ptrue peqb more c w2 x2 E2 Sm2 I2) as (w3 & x3 & a & In3 & A3 & C3 & Fin).
  destruct (named_known w n kx E Nc) as (k & Hn & Hk & (Kt & Kp) & k0 & Kl & Kn & K0).
  assert (Hk3 : nth_error (w_cls w3) k = Some kx) by (rewrite (al_cls _ _ _ _ _ _ A3), (ld_cls _ _ _ _ _ _ _ L02); exact Hk).
  pose proof In3 as [Q1 Q2 Q3 Q4 Q5 Q6 (rq & Q7 & Q7r & Q7c) Q8].
  assert (Q3q : circuit_qubits x3 = circuit_qubits x2) by exact (alike_q P c _ _ _ _ A3).
  destruct (found (circuit_qubits x3) qs) as (l & Fl).
  { intros j Hj. apply maxi_le in Hj. rewrite Q3q, Len. lia. }
  assert (Ss : Forall (fun j => ssize_ok (zn j) = true) qs).
  { apply Forall_forall. intros j Hj. apply maxi_le in Hj. unfold ssize_ok in *. apply andb_true_iff in S1. rewrite andb_true_iff, !Z.leb_le, !Z.ltb_lt in *. lia. }
  assert (Pr : Forall prim (circuit_qubits x3)) by (rewrite Q3q; exact (ended_prim w2 x2 E2 Sm2 (id_circ _ _ _ _ I2))).
  pose proof (make_in P ptrue w3 c x3 a n k kx ps rq qs l In3 Hn Hk3 Kt Q7r Q7c Pr Fl Ss) as Mk.
  assert (Pk : pick P rq qs w3 = (w3, Ok l)) by (apply pick_in; auto; now rewrite Q7c).
  destruct (make_script w3 n k kx ps rq qs l Hn Hk3 Pk) as (s & Rs & Es).
  assert (Bd : (let! r := qubits c in make P ptrue n ps r qs) w3 = make P ptrue n ps rq qs w3) by now rewrite (bind_ok _ _ _ _ _ _ (qubits_in P w3 c x3 rq Q1 Q7)).
  assert (Go : forall w4 x4 os r, make P ptrue n ps rq qs w3 = (w4, r) -> clear P w4 -> inside P w4 c x4 a -> loaded w3 x3 w4 x4 os ->
     exists w' x', load_gate P ptrue c n ps qs w = (w', r) /\ ended w' /\ idle P w' c x' /\ alike w4 x4 w' x' /\ loaded w x w' x' os).
  { intros w4 x4 os r M4 C4 In4 L4. destruct (Fin (let! r := qubits c in make P ptrue n ps r qs) s w4 x4 os r) as (w' & x' & G1 & G2 & G3 & G4 & G5); auto.
    - apply Es. now rewrite M4.
    - now rewrite Rs, Bd.
    - now rewrite Bd.
    - exists w', x'. split; [|split; [exact G2|split; [exact G3|split; [exact G4|]]]].
      + unfold load_gate. now rewrite (bind_ok _ _ _ _ _ _ Nq), (bind_ok _ _ _ _ _ _ R2).
      + exact (loaded_trans P c _ _ _ _ _ _ [] os L02 G5). }
  assert (S3q : s_regs (c_q x3) = s_regs (c_q x2)) by apply A3. assert (S3b : s_regs (c_b x3) = s_regs (c_b x2)) by apply A3.
  destruct (refusal kx (List.length ps) (List.length qs)) as [e|] eqn:Ref.
  - destruct Mk as (ys & Mk). destruct (Go _ x3 [] _ Mk) as (w' & x' & G1 & G2 & G3 & G4 & G5).
    + eapply (clear_keep P w3 _ c x3 x3 C3); [reflexivity|exact Q1|reflexivity|]. cbn. symmetry. now apply set_nth_id.
    + now apply inside_op.
    + constructor; cbn; auto; try now rewrite app_nil_r.
      * exists ys. reflexivity.
      * exists []. split; cbn; now rewrite app_nil_r.
      * exists []. split; cbn; now rewrite app_nil_r.
    + exists w', x', [], (Err e). split; [exact G1|]. split; [exact G2|]. split; [exact G3|]. split; [exact G5|].
      assert (T1 : s_regs (c_q x') = s_regs (c_q x3)) by apply G4. assert (T2 : s_regs (c_b x') = s_regs (c_b x3)) by apply G4.
      split; [intros H; specialize (F2 H); unfold fits; rewrite T1, S3q; exact F2|]. split; [congruence|]. split; [rewrite (al_bit _ _ _ _ _ _ G4); cbn; rewrite (al_bit _ _ _ _ _ _ A3); exact W2|].
      split; [rewrite (alike_q P c _ _ _ _ G4), Q3q; exact Len|auto].
  - set (y := new_op P k kx ps l) in *. set (x4 := with_ops x3 (c_ops x3 ++ [List.length (w_op w3)])).
    destruct (Go _ x4 [List.length (w_op w3)] _ Mk) as (w' & x' & G1 & G2 & G3 & G4 & G5).
    + eapply (clear_keep P w3 _ c x3 x4 C3); [reflexivity|exact Q1|reflexivity|reflexivity].
    + exact (proj1 (inside_new w3 x3 a (w_op w3 ++ [y]) 0 _ In3)).
    + constructor; cbn; auto.
      * exists [y]. reflexivity.
      * exists []. split; cbn; now rewrite app_nil_r.
      * exists []. split; cbn; now rewrite app_nil_r.
      * apply set_nth_length.
      * intros d Hd. apply set_nth_other. auto.
      * constructor; [|constructor]. rewrite app_length. cbn. lia.
    + assert (T1 : s_regs (c_q x') = s_regs (c_q x4)) by apply G4. assert (T2 : s_regs (c_b x') = s_regs (c_b x4)) by apply G4.
      exists w', x', [List.length (w_op w3)], (Ok tt). split; [exact G1|]. split; [exact G2|]. split; [exact G3|]. split; [exact G5|].
      split; [intros H; specialize (F2 H); unfold fits; rewrite T1; unfold x4; cbn; rewrite S3q; exact F2|]. split; [rewrite T2; unfold x4; cbn; congruence|]. split; [rewrite (al_bit _ _ _ _ _ _ G4); cbn; rewrite (al_bit _ _ _ _ _ _ A3); exact W2|].
      split; [rewrite (alike_q P c _ _ _ _ G4); unfold x4; change (circuit_qubits (with_ops x3 (c_ops x3 ++ [List.length (w_op w3)]))) with (circuit_qubits x3); rewrite Q3q; exact Len|].
      split; [reflexivity|]. exists (List.length (w_op w3)). split; [reflexivity|].
      exists y, k0, l. rewrite (al_op _ _ _ _ _ _ G4), K0. cbn [w_op set_circ set_op]. split; [apply nth_end|]. split; [exact Kl|]. split; [exact Kn|]. split; [reflexivity|].
      split; [rewrite (alike_q P c _ _ _ _ G4); exact Fl|]. split; [|auto].
      unfold refusal in Ref. unfold y. cbn [o_params new_op]. destruct (k_kind kx) eqn:Kd; cbn [has_params] in *.
      * now rewrite Kp.
      * destruct (Nat.eqb_spec (List.length ps) 1); [|discriminate]. destruct (k_nparams kx) as [[|[|m]]|]; try discriminate. reflexivity.
      * now rewrite Kp.
      * destruct (Nat.leb 1 (List.length ps) && Nat.leb (List.length ps) 3); [|discriminate]. destruct (k_nparams kx) as [[|[|m]]|]; try discriminate. reflexivity.
      * discriminate.
Qed.
End Steps.

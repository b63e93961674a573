(** Adding the measurements. *)
From Coq Require Import List ZArith String Bool Arith Lia.
From Verif Require Import Py QirModel LinkModel RegisterModel RegisterSpec RegisterProofs WorldModel WorldSpec WorldSpec4 WorldReg WorldInv WorldInv2 WorldInv3 WorldInv4 WorldInv5 WorldInv6 WorldInv7 WorldWf2 WorldOps ExportSpec LoadModel LoadSpec LoadProofs LoadProofs2 LoadProofs3 LoadProofs4 LoadProofs5 LoadProofs6.
Import ListNotations.
Local Open Scope nat_scope.

Section Steps.
Variable P : Type.
Variable ptrue : P -> bool.
Variable peqb : P -> P -> bool.
Variable more : list cls.
Notation world := (world P).
Notation M := (WorldModel.M P).
Notation ok := (both_ok P ptrue peqb).
Notation ended := (ended P ptrue peqb more).
Variable c : nat.
Notation loaded := (loaded P c).
Notation alike := (alike P c).

Lemma meas_class (w : world) : ended w -> exists kx, nth_error (w_cls w) 22 = Some kx /\ k_kind kx = KMeas /\ k_numq kx = None /\ k_name kx = "Measurement"%string.
Proof.
  intros E. destruct (ended_class P ptrue peqb more w 22 (mkCls "Measurement"%string KMeas None None None None) E eq_refl) as (kx & H & (S1 & S2 & _ & _ & _ & S6)).
  exists kx. split; [exact H|]. split; [exact S2|]. split; [|exact S1]. destruct S6 as [S6|([S6|S6] & _)]; [exact S6|discriminate|discriminate].
Qed.
Lemma meas_index : class_index "Measurement" = Some 22.
Proof. reflexivity. Qed.

Lemma construct_meas (w : world) x a k kx l : inside P w c x a -> nth_error (w_cls w) k = Some kx -> k_kind kx = KMeas -> k_numq kx = None ->
  Forall prim l -> Forall (fun q => In q (circuit_qubits x)) l ->
  construct ptrue k None (AQ (Some l)) w = (with_new P w c x (w_op w) (mkOp k (Some l) (Some (List.length l)) [] None None None None), Ok (List.length (w_op w))).
Proof.
  intros I Hk Kd Kn Hp Hi. unfold construct. rewrite (bind_ok _ _ _ _ _ _ (get_cls_some P _ _ _ Hk)). rewrite Kd, Kn. unfold mbind at 1, read. unfold mbind at 1.
  set (y0 := mkOp k None None [] None None None None : opobj P).
  assert (I0 : inside P (set_op w (w_op w ++ [y0])) c x a) by now apply inside_op.
  pose proof (init_in P ptrue (set_op w (w_op w ++ [y0])) c x a (w_op w) y0 k kx [] l I0 eq_refl eq_refl Hk) as In0.
  unfold mbind. rewrite In0; [|unfold tame; rewrite Kn; discriminate|reflexivity|assumption|assumption]. unfold miscounted. rewrite Kn. reflexivity.
Qed.

Lemma store_new (w : world) l y kx bs n : w_op w = l ++ [y] -> nth_error (w_cls w) (o_cls y) = Some kx -> k_kind kx = KMeas -> o_numq y = Some n ->
  store (List.length l) bs w = if Nat.ltb (List.length bs) n then (w, Err ValueError) else (set_op w (l ++ [with_obits y (Some (firstn n bs))]), Ok tt).
Proof.
  intros Ho Hk Kd Hn. assert (Eo : nth_error (w_op w) (List.length l) = Some y) by (rewrite Ho; apply nth_end).
  unfold store. rewrite (bind_ok _ _ _ _ _ _ (get_op_some P _ _ _ Eo)), (bind_ok _ _ _ _ _ _ (get_cls_some P _ _ _ Hk)), Kd, Hn.
  destruct (Nat.ltb (List.length bs) n); [reflexivity|]. unfold put_op. now rewrite Ho, set_nth_end.
Qed.

Definition meas_result (w : world) (x : circ) (qs bs : list nat) (w' : world) (x' : circ) (os : list nat) (r : res unit) : Prop :=
  (Exists (fun j => List.length (circuit_qubits x) <= j) qs /\ r = Err IndexError /\ os = []) \/
  (Forall (fun j => j < List.length (circuit_qubits x)) qs /\ List.length bs < List.length qs /\ r = Err ValueError /\ exists o, os = [o] /\ holds_unstored P w' x' qs o) \/
  (Forall (fun j => j < List.length (circuit_qubits x)) qs /\ List.length qs <= List.length bs /\ r = Ok tt /\ exists o, os = [o] /\ holds_measurement P w' x' qs bs o).

Lemma meas_step (w : world) x qs bs : ended w -> idle P w c x ->
  (fits (c_b x) /\ clear_at P w x) \/ S (maxi bs) <= List.length (circuit_bits x) ->
  ssize_ok (zn (List.length (w_qubit w)) + 1) = true -> ssize_ok (zn (List.length (w_bit w) + S (maxi bs)) + 1) = true ->
  Forall (fun j => ssize_ok (zn j) = true) qs ->
  exists w' x' os r, load_measurements P ptrue c qs bs w = (w', r) /\ ended w' /\ idle P w' c x' /\ loaded w x w' x' os /\
    circuit_qubits x' = circuit_qubits x /\ List.length (circuit_bits x') = Nat.max (List.length (circuit_bits x)) (S (maxi bs)) /\
    meas_result w x qs bs w' x' os r.
Proof.
  intros E I F S2 S1 Sq.
  assert (Sm : small P w).
  { split; [exact S2|]. unfold ssize_ok in *. apply andb_true_iff in S1. rewrite andb_true_iff, !Z.leb_le, !Z.ltb_lt in *. lia. }
  destruct (bits_step P ptrue peqb more c w x E Sm I) as (w1 & x1 & r1 & R1 & E1 & I1 & A1 & Rr1 & C1).
  assert (Nq : num_bits c w = (w1, Ok (List.length (circuit_bits x)))).
  { unfold num_bits. rewrite (bind_ok _ _ _ _ _ _ R1). unfold ret. now rewrite (rep_stop _ _ Rr1), C1. }
  assert (Rep : exists w2 x2, repeatM P (S (maxi bs) - List.length (circuit_bits x)) (add_bit c ANone LNone) w1 = (w2, Ok tt) /\ ended w2 /\ idle P w2 c x2 /\ s_regs (c_q x2) = s_regs (c_q x) /\
     loaded w1 x1 w2 x2 [] /\ List.length (w_bit w2) = List.length (w_bit w) + (S (maxi bs) - List.length (circuit_bits x)) /\ w_qubit w2 = w_qubit w).
  { destruct (Nat.le_gt_cases (S (maxi bs)) (List.length (circuit_bits x))) as [H|H].
    - exists w1, x1. replace (S (maxi bs) - List.length (circuit_bits x)) with 0 by lia. cbn [repeatM]. split; [reflexivity|]. split; [exact E1|]. split; [exact I1|].
      destruct A1. split; [exact al_q|split; [apply loaded_refl|split; [rewrite al_bit; lia|exact al_qubit]]].
    - destruct F as [[F Ca]|F]; [|lia]. destruct (add_bits P ptrue peqb more c (S (maxi bs) - List.length (circuit_bits x)) w1 x1 E1 I1) as (w2 & x2 & H1 & H2 & H3 & H4 & H4' & H5 & H6 & H7 & H8).
      + unfold fits. destruct A1. now rewrite al_b.
      + destruct A1. now apply (clear_at_same P w w1 x x1).
      + rewrite (al_bit _ _ _ _ _ _ A1). unfold ssize_ok in *. apply andb_true_iff in S1. rewrite andb_true_iff, !Z.leb_le, !Z.ltb_lt in *. lia.
      + now rewrite (al_qubit _ _ _ _ _ _ A1).
      + exists w2, x2. split; [exact H1|]. split; [exact H2|]. split; [exact H3|]. split; [rewrite H5; apply A1|]. split; [exact H6|]. split; [rewrite H7, (al_bit _ _ _ _ _ _ A1); reflexivity|].
        rewrite H8. apply A1. }
  destruct Rep as (w2 & x2 & R2 & E2 & I2 & Q2 & L2 & N2 & W2).
  assert (L02 : loaded w x w2 x2 []) by exact (loaded_trans P c _ _ _ _ _ _ [] [] (alike_loaded P c _ _ _ _ A1) L2).
  assert (Len : List.length (circuit_bits x2) = Nat.max (List.length (circuit_bits x)) (S (maxi bs))).
  { destruct L02 as [_ _ _ (ls & H1 & H2) _ _ _ _ _ _]. rewrite H1, app_length, map_length in N2. rewrite H2, app_length, map_length, seq_length. lia. }
  assert (Q2' : circuit_qubits x2 = circuit_qubits x) by (unfold circuit_qubits; now rewrite Q2).
  assert (Sm2 : small P w2).
  { split; [now rewrite W2|]. rewrite N2. unfold ssize_ok in *. apply andb_true_iff in S1. rewrite andb_true_iff, !Z.leb_le, !Z.ltb_lt in *. lia. }
  destruct (with_step P ptrue peqb more c w2 x2 E2 Sm2 I2) as (w3 & x3 & a & In3 & A3 & C3 & Fin).
  destruct (meas_class w2 E2) as (kx & Hk & Kd & Kn & Kname). rewrite <- (al_cls _ _ _ _ _ _ A3) in Hk.
  pose proof In3 as [H1 H2 H3 H4 H5 H6 (rq & Q7 & Q7r & Q7c) (rb & Q8 & Q8r & Q8c)].
  assert (Q3q : circuit_qubits x3 = circuit_qubits x) by (rewrite (alike_q P c _ _ _ _ A3); exact Q2').
  assert (Q3b : circuit_bits x3 = circuit_bits x2) by exact (alike_b P c _ _ _ _ A3).
  assert (Sb : Forall (fun j => ssize_ok (zn j) = true) bs).
  { apply Forall_forall. intros j Hj. apply maxi_le in Hj. unfold ssize_ok in *. apply andb_true_iff in S1. rewrite andb_true_iff, !Z.leb_le, !Z.ltb_lt in *. lia. }
  set (body := let! r := qubits c in let! l := pick P r qs in let! r' := bits c in let! l' := pick P r' bs in
     match class_index "Measurement" with None => raise AttributeError | Some k => let! o := construct ptrue k None (AQ (Some l)) in store o l' end).
  assert (Bd : forall w' r l, qubits c w3 = (w3, Ok r) -> pick P r qs w3 = (w', l) -> body w3 = match l with Ok l => (let! r' := bits c in let! l' := pick P r' bs in let! o := construct ptrue 22 None (AQ (Some l)) in store o l') w' | Err e => (w', Err e) end).
  { intros w' r l B1 B2. unfold body. rewrite (bind_ok _ _ _ _ _ _ B1). unfold mbind at 1. rewrite B2. destruct l; reflexivity. }
  assert (Go : forall w4 x4 os r s, body w3 = (w4, r) -> executes P ptrue peqb ok s w3 -> run ptrue peqb s w3 = body w3 -> inside P w4 c x4 a -> loaded w3 x3 w4 x4 os -> c_q x4 = c_q x3 -> c_b x4 = c_b x3 ->
     exists w' x', load_measurements P ptrue c qs bs w = (w', r) /\ ended w' /\ idle P w' c x' /\ alike w4 x4 w' x' /\ loaded w x w' x' os /\
       circuit_qubits x' = circuit_qubits x /\ circuit_bits x' = circuit_bits x2).
  { intros w4 x4 os r s M4 Es Rs In4 L4 K1 K2. destruct (Fin body s w4 x4 os r) as (w' & x' & G1 & G2 & G3 & G4 & G5); auto.
    exists w', x'. split; [|split; [exact G2|split; [exact G3|split; [exact G4|]]]].
    - unfold load_measurements. now rewrite (bind_ok _ _ _ _ _ _ Nq), (bind_ok _ _ _ _ _ _ R2).
    - split; [exact (loaded_trans P c _ _ _ _ _ _ [] os L02 G5)|].
      rewrite (alike_q P c _ _ _ _ G4), (alike_b P c _ _ _ _ G4). unfold circuit_qubits at 1, circuit_bits at 1. rewrite K1, K2. fold (circuit_qubits x3) (circuit_bits x3). auto. }
  pose proof (qubits_in P w3 c x3 rq H1 Q7) as Eq. pose proof (bits_in P w3 c x3 rb H1 Q8) as Eb.
  destruct (Exists_dec (fun j => List.length (circuit_qubits x) <= j) qs (fun j => le_dec (List.length (circuit_qubits x)) j)) as [Ex|Ex].
  { assert (Po : pick P rq qs w3 = (w3, Err IndexError)) by (apply pick_out; auto; now rewrite Q7c, Q3q).
    specialize (Bd _ _ _ Eq Po). destruct (Go w3 x3 [] (Err IndexError) (Raise IndexError)) as (w' & x' & G1 & G2 & G3 & G4 & G5 & G6 & G7); auto using loaded_refl; [exact Logic.I|].
    exists w', x', [], (Err IndexError). split; [exact G1|]. split; [exact G2|]. split; [exact G3|]. split; [exact G5|]. split; [exact G6|]. split; [rewrite G7; exact Len|]. left. auto. }
  assert (Fq : Forall (fun j => j < List.length (circuit_qubits x)) qs).
  { apply Forall_forall. intros j Hj. destruct (Nat.lt_ge_cases j (List.length (circuit_qubits x))); auto. exfalso. apply Ex. apply Exists_exists. eauto. }
  destruct (found (circuit_qubits x3) qs) as (l & Fl). { rewrite Q3q. rewrite Forall_forall in Fq. exact Fq. }
  destruct (found (circuit_bits x3) bs) as (lb & Fb). { intros j Hj. apply maxi_le in Hj. rewrite Q3b, Len. lia. }
  assert (Pk : pick P rq qs w3 = (w3, Ok l)) by (apply pick_in; auto; now rewrite Q7c).
  assert (Pb : pick P rb bs w3 = (w3, Ok lb)) by (apply pick_in; auto; now rewrite Q8c).
  assert (Pr : Forall prim (circuit_qubits x3)) by (rewrite (alike_q P c _ _ _ _ A3); exact (ended_prim P ptrue peqb more c w2 x2 E2 Sm2 (id_circ _ _ _ _ I2))).
  assert (Hpl : Forall prim l).
  { clear -Fl Pr. induction Fl; constructor; auto. rewrite Forall_forall in Pr. apply Pr. eapply nth_error_In; eauto. }
  assert (Hil : Forall (fun q => In q (circuit_qubits x3)) l).
  { clear -Fl. induction Fl; constructor; auto. eapply nth_error_In; eauto. }
  assert (Ll : List.length qs = List.length l) by (clear -Fl; induction Fl; cbn; congruence).
  assert (Lb : List.length bs = List.length lb) by (clear -Fb; induction Fb; cbn; congruence).
  pose proof (construct_meas w3 x3 a 22 kx l In3 Hk Kd Kn Hpl Hil) as Co.
  set (y := mkOp 22 (Some l) (Some (List.length l)) [] None None None None : opobj P) in *. set (w4 := with_new P w3 c x3 (w_op w3) y) in *.
  set (x4 := with_ops x3 (c_ops x3 ++ [List.length (w_op w3)])).
  pose proof (store_new w4 (w_op w3) y kx lb (List.length l) eq_refl Hk Kd eq_refl) as St.
  assert (Bd' : body w3 = store (List.length (w_op w3)) lb w4).
  { rewrite (Bd _ _ _ Eq Pk), (bind_ok _ _ _ _ _ _ Eb), (bind_ok _ _ _ _ _ _ Pb), (bind_ok _ _ _ _ _ _ Co). reflexivity. }
  assert (C4 : clear P w4) by (eapply (clear_keep P w3 _ c x3 x4 C3); [reflexivity|exact H1|reflexivity|reflexivity]).
  assert (In4 : inside P w4 c x4 a) by exact (proj1 (inside_new P c w3 x3 a (w_op w3 ++ [y]) 0 _ In3)).
  set (s := Seq (Do (CConstruct 22 None (AQ (Some l)))) (Do (CStore P (List.length (w_op w3)) lb))).
  assert (Rs : run ptrue peqb s w3 = body w3).
  { unfold s. cbn [run do_call]. rewrite Bd'. unfold mbind at 1. rewrite (unit_of_run P _ _ _ _ Co). reflexivity. }
  assert (Es : executes P ptrue peqb ok s w3).
  { unfold s. cbn [executes run do_call]. rewrite (unit_of_run P _ _ _ _ Co). split.
    - split; [now apply own_any|]. repeat (split; [exact Logic.I|]). unfold leaves_clear. cbn [do_call]. now rewrite (unit_of_run P _ _ _ _ Co).
    - split; [now apply own_any|]. repeat (split; [exact Logic.I|]). unfold leaves_clear. cbn [do_call]. rewrite St. destruct (Nat.ltb (List.length lb) (List.length l)); exact C4. }
  assert (L4 : forall y', loaded w3 x3 (set_op w4 (w_op w3 ++ [y'])) x4 [List.length (w_op w3)]).
  { intros y'. constructor; cbn; auto.
    - exists [y']. reflexivity.
    - exists []. split; cbn; now rewrite app_nil_r.
    - exists []. split; cbn; now rewrite app_nil_r.
    - apply set_nth_length.
    - intros d Hd. apply set_nth_other. auto.
    - constructor; [|constructor]. rewrite app_length. cbn. lia. }
  destruct (Nat.ltb_spec (List.length lb) (List.length l)) as [Hlt|Hge].
  - destruct (Go w4 x4 [List.length (w_op w3)] (Err ValueError) s) as (w' & x' & G1 & G2 & G3 & G4 & G5 & G6 & G7); auto.
    + now rewrite Bd', St.
    + exact (L4 y).
    + exists w', x', [List.length (w_op w3)], (Err ValueError). split; [exact G1|]. split; [exact G2|]. split; [exact G3|]. split; [exact G5|]. split; [exact G6|]. split; [rewrite G7; exact Len|].
      right. left. split; [exact Fq|]. split; [lia|]. split; [reflexivity|]. exists (List.length (w_op w3)). split; [reflexivity|].
      exists y, (mkCls "Measurement"%string KMeas None None None None), l. rewrite (al_op _ _ _ _ _ _ G4). split; [apply nth_end|]. split; [reflexivity|]. split; [reflexivity|].
      split; [reflexivity|]. split; [rewrite G6, <- Q3q; exact Fl|reflexivity].
  - set (y' := with_obits y (Some (firstn (List.length l) lb))) in *.
    destruct (Go (set_op w4 (w_op w3 ++ [y'])) x4 [List.length (w_op w3)] (Ok tt) s) as (w' & x' & G1 & G2 & G3 & G4 & G5 & G6 & G7); auto.
    + now rewrite Bd', St.
    + now apply inside_op.
    + exists w', x', [List.length (w_op w3)], (Ok tt). split; [exact G1|]. split; [exact G2|]. split; [exact G3|]. split; [exact G5|]. split; [exact G6|]. split; [rewrite G7; exact Len|].
      right. right. split; [exact Fq|]. split; [lia|]. split; [reflexivity|]. exists (List.length (w_op w3)). split; [reflexivity|].
      exists y', (mkCls "Measurement"%string KMeas None None None None), l, (firstn (List.length l) lb). rewrite (al_op _ _ _ _ _ _ G4). cbn [w_op set_op]. split; [apply nth_end|]. split; [reflexivity|]. split; [reflexivity|].
      split; [reflexivity|]. split; [rewrite G6, <- Q3q; exact Fl|]. split; [reflexivity|]. split; [|split; reflexivity].
      rewrite G7, <- Q3b, Ll. generalize (List.length l). clear -Fb. induction Fb; intros [|n]; cbn; try constructor; auto.
Qed.
End Steps.

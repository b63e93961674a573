(** What a load has done so far; adding several qubits or bits; loading one gate. *)
From Coq Require Import List ZArith String Bool Arith Lia.
From Verif Require Import Py QirModel LinkModel RegisterModel RegisterSpec RegisterProofs WorldModel WorldSpec WorldSpec4 WorldReg WorldInv WorldInv2 WorldInv3 WorldInv4 WorldInv5 WorldInv6 WorldInv7 WorldWf2 WorldOps ExportSpec LoadModel LoadSpec LoadProofs LoadProofs2 LoadProofs3.
Import ListNotations.
Local Open Scope nat_scope.

Section Steps.
Variable P : Type.
Variable ptrue : P -> bool.
Variable peqb : P -> P -> bool.
Variable more : list cls.
Notation world := (world P).
Notation M := (WorldModel.M P).
Notation ok := (both_ok P ptrue peqb).
Notation ended := (ended P ptrue peqb more).
Variable c : nat.

Notation loaded := (loaded P c).
Lemma loaded_refl w x : loaded w x w x [].
Proof.
  constructor; rewrite ?app_nil_r; auto.
  - exists []. now rewrite app_nil_r.
  - exists []. now rewrite !app_nil_r.
  - exists []. now rewrite !app_nil_r.
Qed.
Lemma loaded_trans w x w1 x1 w2 x2 o1 o2 : loaded w x w1 x1 o1 -> loaded w1 x1 w2 x2 o2 -> loaded w x w2 x2 (o1 ++ o2).
Proof.
  intros [A1 (z1 & A2) (l1 & A3 & A4) (b1 & A5 & A6) A7 A8 A9 A10 A11 [A12 A13]] [B1 (z2 & B2) (l2 & B3 & B4) (b2 & B5 & B6) B7 B8 B9 B10 B11 [B12 B13]].
  constructor; try congruence.
  - exists (z1 ++ z2). rewrite B2, A2. now rewrite app_assoc.
  - exists (l1 ++ l2). rewrite B3, A3, B4, A4, A3, !app_length, seq_app, map_app, !app_assoc. auto.
  - exists (b1 ++ b2). rewrite B5, A5, B6, A6, A5, !app_length, map_length, seq_app, !map_app, !app_assoc. auto.
  - intros d Hd. rewrite B9, A9; auto.
  - rewrite B10, A10. now rewrite app_assoc.
  - apply Forall_app. split; [eapply Forall_impl; [|exact A11]|eapply Forall_impl; [|exact B11]]; cbn; intros o Ho; rewrite ?B2, ?A2, ?app_length in *; lia.
  - split; congruence.
Qed.

(** The other side is the same. *)
Lemma idle_add (w : world) x s l : idle P w c x -> idle P (set_qubit (set_circ w (set_nth c (with_q x s) (w_circ w))) l) c (with_q x s).
Proof. intros [H1 H2 H3 H4]. constructor; auto. eapply set_nth_same; exact H1. Qed.
Lemma idle_add_bit (w : world) x s l : idle P w c x -> idle P (set_bit (set_circ w (set_nth c (with_b x s) (w_circ w))) l) c (with_b x s).
Proof. intros [H1 H2 H3 H4]. constructor; auto. eapply set_nth_same; exact H1. Qed.

Lemma own_any (w : world) y : match y with CQubits _ _ | CBits _ _ | CAddQubit _ _ _ _ | CAddBit _ _ _ _ | CUnlock _ _ | CConstruct _ _ _ | CStore _ _ _ | CNew _ _ _ _ => True | _ => False end -> own_ok P w y.
Proof. destruct y; intros []; split; try exact I; split; try exact I; intros []. Qed.

Lemma small_shrink (w w' : world) : List.length (w_qubit w) <= List.length (w_qubit w') -> List.length (w_bit w) <= List.length (w_bit w') -> small P w' -> small P w.
Proof.
  intros H1 H2 [S1 S2]. unfold small, ssize_ok in *. apply andb_true_iff in S1, S2. rewrite !andb_true_iff.
  rewrite !Z.leb_le, !Z.ltb_lt in *. lia.
Qed.

Lemma add_qubits n : forall (w : world) x, ended w -> idle P w c x -> fits (c_q x) ->
  ssize_ok (zn (List.length (w_qubit w) + n) + 1) = true -> ssize_ok (zn (List.length (w_bit w)) + 1) = true ->
  exists w' x', repeatM P n (add_qubit c ANone LNone) w = (w', Ok tt) /\ ended w' /\ idle P w' c x' /\ fits (c_q x') /\ c_b x' = c_b x /\
    loaded w x w' x' [] /\ List.length (w_qubit w') = List.length (w_qubit w) + n /\ w_bit w' = w_bit w.
Proof.
  induction n as [|n IH]; intros w x E I F S1 S2.
  - exists w, x. cbn. repeat (split; [now auto using loaded_refl|]). auto.
  - assert (S : small P w).
    { split; [|exact S2]. unfold ssize_ok in *. apply andb_true_iff in S1. rewrite andb_true_iff, !Z.leb_le, !Z.ltb_lt in *. lia. }
    destruct (ended_inv P ptrue peqb more w E S) as (J & _ & C & _). pose proof (id_circ _ _ _ _ I) as Hc.
    destruct (add_step P w c x J S Hc F) as (s & l & Ea & Fs & As).
    set (w1 := set_qubit (set_circ w (set_nth c (with_q x s) (w_circ w))) (w_qubit w ++ [l])) in *.
    assert (E1 : ended w1).
    { assert (R : run ptrue peqb (Do (CAddQubit P c ANone LNone)) w = (w1, Ok tt)) by exact Ea.
      replace w1 with (fst (run ptrue peqb (Do (CAddQubit P c ANone LNone)) w)) by now rewrite R. apply ended_run; [exact E|].
      cbn [executes]. split; [now apply own_any|]. split; [exact Logic.I|]. split; [exact Logic.I|]. split; [exact Logic.I|]. unfold leaves_clear. cbn [do_call]. rewrite Ea. cbn [fst].
      eapply (clear_keep P w w1 c x (with_q x s) C); [reflexivity|exact Hc|reflexivity|reflexivity]. }
    assert (L1 : loaded w x w1 (with_q x s) []).
    { constructor; cbn; auto.
      - exists []. now rewrite app_nil_r.
      - exists [l]. split; [reflexivity|]. exact As.
      - exists []. split; cbn; now rewrite app_nil_r.
      - apply set_nth_length.
      - intros d Hd. apply set_nth_other. auto.
      - now rewrite app_nil_r. }
    destruct (IH w1 (with_q x s) E1) as (w' & x' & R & E' & I' & F' & B' & L' & N' & W').
    { now apply idle_add. }
    { exact Fs. }
    { cbn. rewrite app_length. cbn. now replace (List.length (w_qubit w) + 1 + n) with (List.length (w_qubit w) + Datatypes.S n) by lia. }
    { exact S2. }
    exists w', x'. split; [cbn [repeatM]; rewrite (bind_ok _ _ _ _ _ _ Ea); exact R|]. split; [exact E'|]. split; [exact I'|]. split; [exact F'|].
    split; [now rewrite B'|]. split; [exact (loaded_trans _ _ _ _ _ _ [] [] L1 L')|]. split; [|exact W']. rewrite N'. cbn. rewrite app_length. cbn. lia.
Qed.

Lemma clear_at_grow (w : world) x s l : JB P w -> nth_error (w_circ w) c = Some x -> clear_at P w x -> all_items (s_regs s) = circuit_bits x ++ [IBit (List.length (w_bit w))] ->
  clear_at P (set_bit (set_circ w (set_nth c (with_b x s) (w_circ w))) (w_bit w ++ [(l, None)])) (with_b x s).
Proof.
  intros J Hc C A i b Hi v Hv. unfold circuit_bits in Hi. cbn in Hi. rewrite A in Hi. unfold bit_value in Hv. cbn in Hv.
  destruct (Nat.lt_ge_cases i (List.length (circuit_bits x))) as [H|H].
  - rewrite nth_error_app1 in Hi by exact H. apply (C i b Hi v). unfold bit_value.
    pose proof (JB_nth _ _ _ _ J Hc) as [A' _]. pose proof (ro_good _ _ A') as G. rewrite Forall_forall in G.
    destruct (G (IBit b)) as (b' & [= <-] & Hb); [eapply nth_error_In; exact Hi|]. now rewrite nth_error_app1 in Hv by exact Hb.
  - rewrite nth_error_app2 in Hi by exact H. destruct (i - List.length (circuit_bits x)) as [|[|?]]; try discriminate. injection Hi as <-.
    rewrite nth_error_app2, Nat.sub_diag in Hv by auto. discriminate.
Qed.

Lemma add_bits n : forall (w : world) x, ended w -> idle P w c x -> fits (c_b x) -> clear_at P w x ->
  ssize_ok (zn (List.length (w_bit w) + n) + 1) = true -> ssize_ok (zn (List.length (w_qubit w)) + 1) = true ->
  exists w' x', repeatM P n (add_bit c ANone LNone) w = (w', Ok tt) /\ ended w' /\ idle P w' c x' /\ fits (c_b x') /\ clear_at P w' x' /\ c_q x' = c_q x /\
    loaded w x w' x' [] /\ List.length (w_bit w') = List.length (w_bit w) + n /\ w_qubit w' = w_qubit w.
Proof.
  induction n as [|n IH]; intros w x E I F Ca S1 S2.
  - exists w, x. cbn. repeat (split; [now auto using loaded_refl|]). auto.
  - assert (S : small P w).
    { split; [exact S2|]. unfold ssize_ok in *. apply andb_true_iff in S1. rewrite andb_true_iff, !Z.leb_le, !Z.ltb_lt in *. lia. }
    destruct (ended_inv P ptrue peqb more w E S) as (_ & J & C & _). pose proof (id_circ _ _ _ _ I) as Hc.
    destruct (add_bit_step P w c x J S Hc Ca F) as (s & l & Ea & Fs & As).
    set (w1 := set_bit (set_circ w (set_nth c (with_b x s) (w_circ w))) (w_bit w ++ [(l, None)])) in *.
    assert (Ca1 : clear_at P w1 (with_b x s)) by (apply clear_at_grow; auto).
    assert (C1 : clear P w1).
    { intros d y Hd Hn. unfold w1 in Hd. cbn in Hd. destruct (Nat.eq_dec d c) as [->|Hne].
      - rewrite (set_nth_same _ _ _ _ Hc) in Hd. injection Hd as <-. exact Ca1.
      - rewrite set_nth_other in Hd by auto. exact (clear_at_more P w [(l, None)] d y J Hd (C d y Hd Hn)). }
    assert (E1 : ended w1).
    { assert (R : run ptrue peqb (Do (CAddBit P c ANone LNone)) w = (w1, Ok tt)) by exact Ea.
      replace w1 with (fst (run ptrue peqb (Do (CAddBit P c ANone LNone)) w)) by now rewrite R. apply ended_run; [exact E|].
      cbn [executes]. split; [now apply own_any|]. split; [exact Logic.I|]. split; [exact Logic.I|]. split; [|unfold leaves_clear; cbn [do_call]; rewrite Ea; exact C1].
      intros y Hy. rewrite Hc in Hy. injection Hy as <-. exact Ca. }
    assert (L1 : loaded w x w1 (with_b x s) []).
    { constructor; cbn; auto.
      - exists []. now rewrite app_nil_r.
      - exists []. split; cbn; now rewrite app_nil_r.
      - exists [l]. split; [reflexivity|]. exact As.
      - apply set_nth_length.
      - intros d Hd. apply set_nth_other. auto.
      - now rewrite app_nil_r. }
    destruct (IH w1 (with_b x s) E1) as (w' & x' & R & E' & I' & F' & Ca' & B' & L' & N' & W').
    { now apply idle_add_bit. }
    { exact Fs. }
    { exact Ca1. }
    { cbn. rewrite app_length. cbn. now replace (List.length (w_bit w) + 1 + n) with (List.length (w_bit w) + Datatypes.S n) by lia. }
    { exact S2. }
    exists w', x'. split; [cbn [repeatM]; rewrite (bind_ok _ _ _ _ _ _ Ea); exact R|]. split; [exact E'|]. split; [exact I'|]. split; [exact F'|]. split; [exact Ca'|].
    split; [now rewrite B'|]. split; [exact (loaded_trans _ _ _ _ _ _ [] [] L1 L')|]. split; [|exact W']. rewrite N'. cbn. rewrite app_length. cbn. lia.
Qed.
End Steps.

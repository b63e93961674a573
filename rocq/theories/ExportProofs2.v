(** C69 for programs. *)
From Coq Require Import List ZArith String Bool Arith Lia.
From Verif Require Import Py QirModel QirSpec QirProofs2 QirProofs4 QasmModel QasmSpec QasmProofs2 LinkModel
  RegisterModel WorldModel WorldSpec WorldSpec4 WorldReg WorldInv WorldInv2 WorldInv3 WorldWf2 WorldWf3 WorldInv5 WorldInv6 WorldInv7 WorldProofs WorldProofs2
  ReplayProofs WorldArity WorldArity2 WorldNumq LinkSpec LinkProofs ExportModel ExportSpec ExportProofs.
Import ListNotations.
Local Open Scope nat_scope.
Local Open Scope string_scope.

Lemma posn_nth q l k : posn q l = Some k -> nth_error l k = Some q.
Proof.
  revert k. induction l as [|a l IH]; intros k H; cbn in H; [discriminate|]. destruct (Nat.eqb q a) eqn:E.
  - apply Nat.eqb_eq in E. injection H as <-. now subst.
  - destruct (posn q l) as [m|]; [|discriminate]. injection H as <-. now apply IH.
Qed.
Lemma posn_none q l : posn q l = None -> ~ In q l.
Proof.
  induction l as [|a l IH]; intros H Hi; cbn in H; [easy|]. destruct (Nat.eqb q a) eqn:E; [discriminate|]. apply Nat.eqb_neq in E.
  destruct (posn q l); [discriminate|]. destruct Hi as [->|Hi]; [now apply E|now apply IH].
Qed.
Lemma find_at_ok q rs : forall i j k, find_at i q rs = Ok (j, k) -> exists m r, j = i + m /\ nth_error rs m = Some r /\ nth_error r k = Some q.
Proof.
  induction rs as [|r rs IH]; intros i j k H; cbn in H; [discriminate|]. destruct (posn q r) as [m|] eqn:E.
  - injection H as <- <-. exists 0, r. repeat split; [lia|]. now apply posn_nth.
  - destruct (IH _ _ _ H) as (m & r' & -> & H1 & H2). exists (S m), r'. repeat split; [lia|exact H1|exact H2].
Qed.
Lemma find_at_err q rs e : forall i, find_at i q rs = Err e -> e = ValueError /\ ~ In q (List.concat rs).
Proof.
  induction rs as [|r rs IH]; intros i H; cbn in H; [injection H as <-; easy|]. destruct (posn q r) as [m|] eqn:E; [discriminate|].
  destruct (IH _ H) as (-> & H1). split; [reflexivity|]. cbn. intros Hi. apply in_app_or in Hi. destruct Hi as [Hi|Hi]; [now apply (posn_none q r)|contradiction].
Qed.
Lemma Forall2_nth {A B} (R : A -> B -> Prop) l m i b : Forall2 R l m -> nth_error m i = Some b -> exists a, nth_error l i = Some a /\ R a b.
Proof. intros F. revert i. induction F as [|a' b' l m H _ IH]; intros [|i] E; cbn in E; try discriminate; [injection E as <-; exists a'; now split|now apply IH]. Qed.
Lemma find_found {P} (v : world P) (g : nat -> item) rs l q out b : (forall a b, g a = g b -> a = b) ->
  Forall2 (fun z js => contents (snd z) = map g js) rs l -> b = (v, out) -> found rs (g q) out -> agree v (find q l) b.
Proof.
  intros Hg F -> (F1 & F2). unfold find, agree. destruct (find_at 0 q l) as [[i k]|e] eqn:E.
  - destruct (find_at_ok _ _ _ _ _ E) as (m & r & -> & H1 & H2). destruct (Forall2_nth _ _ _ _ _ F H1) as ([lb rg] & H3 & H4). cbn [snd] in H4.
    exists lb. f_equal. apply F1. exists rg, k. split; [exact H3|]. split; [|reflexivity]. rewrite H4. now apply map_nth_error.
  - destruct (find_at_err _ _ _ _ E) as (-> & H). f_equal. apply F2. split; [reflexivity|]. rewrite (reg_all g rs l F). intros Hi.
    apply in_map_iff in Hi. destruct Hi as (q' & E1 & E2). apply Hg in E1. now subst.
Qed.

Section Programs.
Variable P : Type.
Variable ptrue : P -> bool.
Variable peqb : P -> P -> bool.
Variable more : list cls.
Variable p : prog P.
Variable v : world P.
Hypothesis Hex : executes P ptrue peqb (both_ok P ptrue peqb) p (start P (library_classes ++ more)%list).
Hypothesis Hvi : visits P ptrue peqb p (start P (library_classes ++ more)%list) v.
Hypothesis Hsm : small P v.
Variables (c : nat) (x : circ).
Hypothesis Hc : nth_error (w_circ v) c = Some x.

Lemma both_own : executes P ptrue peqb (own_ok P) p (start P (library_classes ++ more)%list).
Proof. eapply executes_impl; [|exact Hex]. unfold both_ok. tauto. Qed.
Lemma both_reach (ok : world P -> WorldModel.call P -> Prop) : (forall w y, both_ok P ptrue peqb w y -> ok w y) -> reaches P ptrue peqb ok v.
Proof. intros H. exists (library_classes ++ more)%list, p. split; [eapply executes_impl; [exact H|exact Hex]|exact Hvi]. Qed.
Lemma both_class : reaches P ptrue peqb (classical_ok P ptrue peqb) v.
Proof. apply both_reach. unfold both_ok. tauto. Qed.
Lemma both_bits : Forall is_bit (circuit_bits x) /\ Forall (fun q => regok (snd q)) (s_regs (c_b x)) /\ exists r w', bits c v = (w', Ok r).
Proof.
  destruct (IB_reach P ptrue peqb v both_class Hsm) as [J _]. destruct (JB_nth _ _ _ _ J Hc) as [A _]. split; [now apply (JB_separate P v c x J Hc)|].
  split; [exact (ro_regs _ _ A)|]. destruct (C13_b_of P ptrue peqb _ v c x (IB_reach P ptrue peqb)) as (r & w' & E & _); [|exact Hsm|exact Hc|eauto].
  apply both_reach. unfold both_ok, own_ok. tauto.
Qed.

Lemma export_qir D (dbl : param P -> D) pnum ext gates meas : c_ops x = (gates ++ meas)%list ->
  (forall o y, In o gates -> nth_error (w_op v) o = Some y -> compilable P pnum ext v y) ->
  (forall o y, In o meas -> nth_error (w_op v) o = Some y -> measurable P v x y) ->
  exists q a b r ms, qir_circuit P v c = Some q /\
    to_qir_calls (param P) pnum D dbl q ext = Ok [mkMain D (Call D "__quantum__rt__initialize" [] :: a ++ b ++ r) true]%list /\
    Forall2 (called P D dbl v x) gates a /\ Forall2 (measures P v) meas ms /\
    Forall2 (measured_call D x) (List.concat ms) b /\ Forall2 (recorded_call D x) (List.concat ms) r.
Proof. destruct both_bits as (B1 & B2 & B3). exact (ex_qir P ptrue peqb more p v both_own Hvi Hsm c x Hc D dbl pnum ext B1 B2 B3 gates meas). Qed.

Lemma export_qasm show lstr labels defs :
  (forall o y, In o (c_ops x) -> nth_error (w_op v) o = Some y -> complete P v y /\ ~ has_name P v y "Measurement" /\ Forall plain (map show (o_params y))) ->
  (labels = true -> Forall (fun l => label_true l = true /\ word (lstr l)) (map fst (s_regs (c_q x)) ++ map fst (s_regs (c_b x))) /\
     NoDup (map lstr (map fst (s_regs (c_q x)) ++ map fst (s_regs (c_b x))))) ->
  exists a s ds qs cs ss, qasm_circuit P v c = Some a /\
    to_qasm (param P) show label label_true lstr "2.0" labels defs a = Ok s /\
    QasmSpec.read s = Some (map LDef ds ++ map LQreg qs ++ map LCreg cs ++ map LStmt ss)%list /\
    NoDup (map fst (qs ++ cs)) /\ map snd qs = map (fun r => List.length (contents (snd r))) (s_regs (c_q x)) /\
    map snd cs = map (fun r => List.length (contents (snd r))) (s_regs (c_b x)) /\
    Forall2 (stated P show qs v x) (c_ops x) ss /\
    exists ns, Forall2 (named_op P v) (c_ops x) ns /\ ds = (if defs then List.concat (map offered ns) else []).
Proof. destruct both_bits as (_ & B2 & _). intros Ho. exact (ex_qasm P ptrue peqb more p v both_own Hvi Hsm c x Hc show lstr B2 Ho labels defs). Qed.

Lemma export_find q0 : qir_circuit P v c = Some q0 ->
  (forall q, agree v (find q (c_qregs _ q0)) (find_qubit c (IQubit q) v)) /\ (forall b, agree v (find b (c_cregs _ q0)) (find_bit c (IBit b) v)).
Proof.
  intros E. unfold qir_circuit in E. rewrite Hc in E. destruct (snd (qubits c v)); [|discriminate]. destruct (snd (bits c v)); [|discriminate].
  destruct both_bits as (B1 & B2 & _). destruct (JQ_nth _ _ _ _ (ex_JQ P ptrue peqb more p v both_own Hvi Hsm) Hc) as [RQ _].
  destruct (reg_read qubit_id IQubit is_qubit (s_regs (c_q x)) read_qubits (ro_regs _ _ RQ) (ex_qubits P ptrue peqb more p v both_own Hvi Hsm c x Hc)) as (qr & Eqr & Fqr).
  destruct (reg_read bit_id IBit is_bit (s_regs (c_b x)) read_bits B2 B1) as (br & Ebr & Fbr).
  rewrite Eqr, Ebr in E. destruct (all_some (qir_op P v) (c_ops x)); [|discriminate]. injection E as <-. cbn [c_qregs c_cregs]. split.
  - intros q. destruct (C22_find_q P ptrue peqb v c x q) as (out & E1 & E2); [|exact Hsm|exact Hc|].
    { apply both_reach. unfold both_ok, own_ok. tauto. }
    eapply find_found with (g := IQubit); [congruence|exact Fqr|exact E1|exact E2].
  - intros b. destruct (C22_find_b P ptrue peqb v c x b both_class Hsm Hc) as (out & E1 & E2).
    eapply find_found with (g := IBit); [congruence|exact Fbr|exact E1|exact E2].
Qed.
End Programs.

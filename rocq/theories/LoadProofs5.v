(** Loading one gate. *)
From Coq Require Import List ZArith String Bool Arith Lia.
From Verif Require Import Py QirModel LinkModel RegisterModel RegisterSpec RegisterProofs WorldModel WorldSpec WorldSpec4 WorldReg WorldInv WorldInv2 WorldInv3 WorldInv4 WorldInv5 WorldInv6 WorldInv7 WorldWf2 WorldOps ExportSpec LoadModel LoadSpec LoadProofs LoadProofs2 LoadProofs3 LoadProofs4.
Import ListNotations.
Local Open Scope nat_scope.

Section Steps.
Variable P : Type.
Variable ptrue : P -> bool.
Variable peqb : P -> P -> bool.
Variable more : list cls.
Notation world := (world P).
Notation M := (WorldModel.M P).
Notation ok := (both_ok P ptrue peqb).
Notation ended := (ended P ptrue peqb more).
Variable c : nat.
Notation loaded := (loaded P c).

Lemma bind_inv {A B} (m : M A) (f : A -> M B) w w' b : mbind m f w = (w', Ok b) -> exists w1 a, m w = (w1, Ok a) /\ f a w1 = (w', Ok b).
Proof. unfold mbind. destruct (m w) as [w1 [a|e]]; [eauto|discriminate]. Qed.

(** The circuits are the same but for the caches, the lock and the context. *)
Record alike (w : world) (x : circ) (w' : world) (x' : circ) : Prop := {
  al_cls : w_cls w' = w_cls w; al_op : w_op w' = w_op w; al_qubit : w_qubit w' = w_qubit w; al_bit : w_bit w' = w_bit w;
  al_var : w_var w' = w_var w; al_circ : w_circ w' = set_nth c x' (w_circ w); al_at : nth_error (w_circ w) c = Some x;
  al_q : s_regs (c_q x') = s_regs (c_q x); al_b : s_regs (c_b x') = s_regs (c_b x);
  al_ops : c_ops x' = c_ops x; al_par : c_par x' = c_par x; al_vars : c_vars x' = c_vars x
}.
Lemma alike_q w x w' x' : alike w x w' x' -> circuit_qubits x' = circuit_qubits x.
Proof. intros A. unfold circuit_qubits. now rewrite (al_q _ _ _ _ A). Qed.
Lemma alike_b w x w' x' : alike w x w' x' -> circuit_bits x' = circuit_bits x.
Proof. intros A. unfold circuit_bits. now rewrite (al_b _ _ _ _ A). Qed.
Lemma alike_loaded w x w' x' : alike w x w' x' -> loaded w x w' x' [].
Proof.
  intros A. pose proof (alike_q _ _ _ _ A) as Hq. pose proof (alike_b _ _ _ _ A) as Hb. destruct A. constructor; auto.
  - exists []. now rewrite app_nil_r.
  - exists []. split; cbn; now rewrite app_nil_r.
  - exists []. split; cbn; now rewrite app_nil_r.
  - rewrite al_circ0. apply set_nth_length.
  - intros d Hd. rewrite al_circ0. apply set_nth_other. auto.
  - now rewrite app_nil_r.
Qed.

Lemma sv_q (w : world) x : SV P w -> nth_error (w_circ w) c = Some x ->
  s_cache (c_q x) = None \/ s_regs (c_q x) <> [] \/ exists r, s_cache (c_q x) = Some r /\ contents r = [].
Proof.
  intros [S _] H. assert (O : okS (c_q x)). { eapply Forall_nth; [exact S|]. rewrite nth_map, H. reflexivity. }
  destruct (s_cache (c_q x)) as [r|] eqn:E; [|auto]. destruct (s_regs (c_q x)) eqn:Er; [|right; left; discriminate]. right; right. exists r. split; [reflexivity|]. now apply O.
Qed.
Lemma sv_b (w : world) x : SV P w -> nth_error (w_circ w) c = Some x ->
  s_cache (c_b x) = None \/ s_regs (c_b x) <> [] \/ exists r, s_cache (c_b x) = Some r /\ contents r = [].
Proof.
  intros [_ S] H. assert (O : okS (c_b x)). { eapply Forall_nth; [exact S|]. rewrite nth_map, H. reflexivity. }
  destruct (s_cache (c_b x)) as [r|] eqn:E; [|auto]. destruct (s_regs (c_b x)) eqn:Er; [|right; left; discriminate]. right; right. exists r. split; [reflexivity|]. now apply O.
Qed.

Lemma qubits_step (w : world) x : ended w -> small P w -> idle P w c x ->
  exists w1 x1 r, qubits c w = (w1, Ok r) /\ ended w1 /\ idle P w1 c x1 /\ alike w x w1 x1 /\ regok r /\ contents r = circuit_qubits x.
Proof.
  intros E S I. destruct (ended_inv P ptrue peqb more w E S) as (J & _ & C & V). pose proof (id_circ _ _ _ _ I) as Hc.
  destruct (qubits_run P c w x J S Hc) as (r & R & Rr & _ & K1 & K2). exists (cached_q P w c x r), (with_q x (mkSide (s_regs (c_q x)) (Some r))), r.
  assert (A : alike w x (cached_q P w c x r) (with_q x (mkSide (s_regs (c_q x)) (Some r)))) by (constructor; auto).
  split; [exact R|]. split; [|split; [|split; [exact A|split; [exact Rr|]]]].
  - assert (Q : run ptrue peqb (Do (CQubits P c)) w = (cached_q P w c x r, Ok tt)) by (cbn [run do_call]; exact (unit_of_run P _ _ _ _ R)).
    replace (cached_q P w c x r) with (fst (run ptrue peqb (Do (CQubits P c)) w)) by now rewrite Q. apply ended_run; [exact E|].
    cbn [executes]. split; [now apply own_any|]. split; [exact Logic.I|]. split; [exact Logic.I|]. split; [exact Logic.I|]. unfold leaves_clear. change (do_call ptrue peqb (CQubits P c) w) with (run ptrue peqb (Do (CQubits P c)) w). rewrite Q. cbn [fst].
    eapply (clear_keep P w _ c x _ C); [reflexivity|exact Hc| |reflexivity]. reflexivity.
  - destruct I. constructor; auto. eapply set_nth_same; exact Hc.
  - destruct (sv_q w x V Hc) as [H|[H|(r' & H1 & H2)]]; [apply K1; auto|apply K1; auto|]. destruct (s_regs (c_q x)) eqn:Er; [|apply K1; right; discriminate].
    rewrite (K2 r' H1), H2. unfold circuit_qubits. now rewrite Er.
Qed.
Lemma bits_step (w : world) x : ended w -> small P w -> idle P w c x ->
  exists w1 x1 r, bits c w = (w1, Ok r) /\ ended w1 /\ idle P w1 c x1 /\ alike w x w1 x1 /\ regok r /\ contents r = circuit_bits x.
Proof.
  intros E S I. destruct (ended_inv P ptrue peqb more w E S) as (_ & J & C & V). pose proof (id_circ _ _ _ _ I) as Hc.
  destruct (bits_run P c w x J S Hc) as (r & _ & R & Rr & _ & K1 & K2). exists (cached_b P w c x r), (with_b x (mkSide (s_regs (c_b x)) (Some r))), r.
  assert (A : alike w x (cached_b P w c x r) (with_b x (mkSide (s_regs (c_b x)) (Some r)))) by (constructor; auto).
  split; [exact R|]. split; [|split; [|split; [exact A|split; [exact Rr|]]]].
  - assert (Q : run ptrue peqb (Do (CBits P c)) w = (cached_b P w c x r, Ok tt)) by (cbn [run do_call]; exact (unit_of_run P _ _ _ _ R)).
    replace (cached_b P w c x r) with (fst (run ptrue peqb (Do (CBits P c)) w)) by now rewrite Q. apply ended_run; [exact E|].
    cbn [executes]. split; [now apply own_any|]. split; [exact Logic.I|]. split; [exact Logic.I|]. split; [exact Logic.I|]. unfold leaves_clear. change (do_call ptrue peqb (CBits P c) w) with (run ptrue peqb (Do (CBits P c)) w). rewrite Q. cbn [fst].
    apply (clear_put P w c x (mkSide (s_regs (c_b x)) (Some r)) C Hc); [reflexivity|discriminate].
  - destruct I. constructor; auto. eapply set_nth_same; exact Hc.
  - destruct (sv_b w x V Hc) as [H|[H|(r' & H1 & H2)]]; [apply (K1 (C c x Hc)); auto|apply (K1 (C c x Hc)); auto|]. destruct (s_regs (c_b x)) eqn:Er; [|apply (K1 (C c x Hc)); right; discriminate].
    rewrite (K2 r' H1), H2. unfold circuit_bits. now rewrite Er.
Qed.

Lemma with_step (w : world) x : ended w -> small P w -> idle P w c x ->
  exists w1 x1 a, inside P w1 c x1 a /\ alike w x w1 x1 /\ clear P w1 /\
   forall (body : M unit) s w2 x2 os r, executes P ptrue peqb ok s w1 -> run ptrue peqb s w1 = body w1 -> body w1 = (w2, r) -> inside P w2 c x2 a -> loaded w1 x1 w2 x2 os ->
   exists w' x', with_circuit P c body w = (w', r) /\ ended w' /\ idle P w' c x' /\ alike w2 x2 w' x' /\ loaded w x w' x' os.
Proof.
  intros E S I. destruct (ended_inv P ptrue peqb more w E S) as (JQ & JB & C & V). pose proof (id_circ _ _ _ _ I) as Hc.
  destruct (enter_spec P w c x I JQ JB S (sv_q w x V Hc) (C c x Hc) (sv_b w x V Hc)) as (a & rq & rb & mo & En & In1 & Hk & Cq & Cb).
  set (x1 := opened x a rq rb) in *. set (w1 := entered P w c x1 a mo) in *.
  assert (A1 : alike w x w1 x1) by (constructor; auto).
  assert (C1 : clear P w1).
  { intros d y Hd Hn. unfold w1, entered in Hd. cbn in Hd. destruct (Nat.eq_dec d c) as [->|Hne].
    - rewrite (set_nth_same _ _ _ _ Hc) in Hd. injection Hd as <-. discriminate.
    - rewrite set_nth_other in Hd by auto. exact (C d y Hd Hn). }
  exists w1, x1, a. split; [exact In1|]. split; [exact A1|]. split; [exact C1|].
  intros body s w2 x2 os r Hs Hrun Hbody In2 L2.
  destruct (bind_inv _ _ _ _ _ En) as (wu & [] & Eu & En1). destruct (bind_inv _ _ _ _ _ En1) as (wc & a' & Ec & En2). destruct (bind_inv _ _ _ _ _ En2) as (we & [] & Ee & En3).
  injection En3 as -> ->.
  pose proof (exit_spec P w2 c x2 a In2) as Ex.
  set (x' := with_locked (with_pfrozen x2 (if c_par x2 then true else c_pfrozen x2)) true) in *.
  set (w' := mkWorld (w_cls w2) (set_nth c x' (w_circ w2)) (w_op w2) (w_qubit w2) (w_bit w2) (w_var w2) (w_ctx w2) None (w_exit w2)) in *.
  assert (Run : with_circuit P c body w = (w', r)).
  { unfold with_circuit. rewrite (bind_ok _ _ _ _ _ _ Eu), (bind_ok _ _ _ _ _ _ Ec), (bind_ok _ _ _ _ _ _ Ee), Hbody. unfold finally. now rewrite Ex. }
  assert (Run' : run ptrue peqb (Seq (Do (CUnlock P c)) (With c s)) w = (w', r)).
  { cbn [run do_call]. rewrite (bind_ok _ _ _ _ _ _ Eu), (bind_ok _ _ _ _ _ _ Ec), (bind_ok _ _ _ _ _ _ Ee), Hrun, Hbody. unfold finally. now rewrite Ex. }
  destruct In2 as [Q1 Q2 Q3 Q4 Q5 Q6 Q7 Q8].
  exists w', x'. split; [exact Run|]. split; [|split; [|split]].
  - replace w' with (fst (run ptrue peqb (Seq (Do (CUnlock P c)) (With c s)) w)) by now rewrite Run'. apply ended_run; [exact E|].
    cbn [executes run do_call]. rewrite Eu. split.
    + split; [now apply own_any|]. split; [exact Logic.I|]. split; [exact Logic.I|]. split; [exact Logic.I|]. unfold leaves_clear. cbn [do_call]. rewrite Eu. cbn [fst].
      unfold unlock in Eu. rewrite (upd_circ_run P c _ w x Hc) in Eu. injection Eu as <-.
      eapply (clear_keep P w _ c x _ C); [reflexivity|exact Hc| |reflexivity]. cbn. now destruct (c_par x).
    + assert (Ece : (let! a := context c in ctx_enter a) wu = (w1, Ok tt)) by now rewrite (bind_ok _ _ _ _ _ _ Ec), Ee. rewrite Ece. exact Hs.
  - constructor; auto; [eapply set_nth_same; exact Q1|]. intros b Hb. change (c_ctx x') with (c_ctx x2) in Hb. rewrite Q5 in Hb. injection Hb as <-. exact Q4.
  - constructor; auto.
  - assert (A2 : alike w2 x2 w' x') by (constructor; auto).
    pose proof (loaded_trans P c _ _ _ _ _ _ _ _ (alike_loaded _ _ _ _ A1) (loaded_trans P c _ _ _ _ _ _ _ _ L2 (alike_loaded _ _ _ _ A2))) as L. now rewrite app_nil_r in L.
Qed.
End Steps.

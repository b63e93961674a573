(** Proofs about compiled modules. *)
From Coq Require Import List String Bool Arith Ascii Lia.
From Verif Require Import Py QirModel QirSpec QirProofs.
Import ListNotations.
Local Open Scope string_scope.
Local Open Scope list_scope.

Ltac by_name n :=
  repeat match goal with |- context [String.eqb n ?s] => destruct (String.eqb_spec n s) as [->|?] end.

Lemma base_function g n f ks : dget String.eqb g to_qir = Some (BASE, n) -> qis_function n = Some (f, ks) ->
  In (g, f) function_of.
Proof.
  unfold to_qir. cbn. by_name g; intros E; try discriminate E; injection E as <-; vm_compute; intros [= <- <-]; tauto.
Qed.
Lemma external_function g n : dget String.eqb g to_qir = Some (EXTERNAL, n) -> In (g, qis_name n) function_of /\ In g extra.
Proof. unfold to_qir. cbn -[function_of extra]. by_name g; intros E; try discriminate E; injection E as <-; vm_compute; tauto. Qed.

Section QirProofs2.
Variable P : Type.
Variable pnum : P -> bool.
Variable D : Type.
Variable dbl : P -> D.
Notation qop := (qop P).
Notation qcircuit := (qcircuit P).
Notation instr := (instr P).
Notation qmodule := (qmodule P D).
Notation execute := (execute P D dbl).

Lemma emit_ok f : forall (l : list instr) (ks : list (call D)), emit P D f l = (ks, None) <-> Forall2 (fun i k => f i = Ok k) l ks.
Proof.
  induction l as [|x l IH]; intros ks; cbn.
  - split; [intros [= <-]; constructor|intros H; inversion H; reflexivity].
  - split.
    + destruct (f x) as [k|] eqn:E; [|discriminate]. destruct (emit P D f l) as [ks' e] eqn:El. intros [= <- ->]. constructor; [exact E|]. now apply IH.
    + intros H. inversion H as [|? k ? ks' H1 H2]; subst. rewrite H1. apply IH in H2. now rewrite H2.
Qed.
Lemma convert_args : forall ps ks is r, convert P D dbl ks (map (ANum P) ps ++ map (AQubit P) is) = Ok r ->
  r = map (CDouble D) (map dbl ps) ++ map (CQubit D) is /\ ks = repeat KD (List.length ps) ++ repeat KQ (List.length is).
Proof.
  induction ps as [|p ps IH]; cbn.
  - intros ks is. revert ks. induction is as [|i is IH]; intros [|[| |] ks] r; cbn; try discriminate; [intros [= <-]; auto|].
    unfold bind. destruct (convert P D dbl ks (map (AQubit P) is)) as [r'|] eqn:E; [|discriminate]. intros [= <-]. destruct (IH _ _ E) as (-> & ->). auto.
  - intros [|[| |] ks] is r; cbn; try discriminate. unfold bind. destruct (convert P D dbl ks _) as [r'|] eqn:E; [|discriminate]. intros [= <-].
    destruct (IH _ _ _ E) as (-> & ->). auto.
Qed.
Lemma convert_ok : forall ps is, convert P D dbl (repeat KD (List.length ps) ++ repeat KQ (List.length is)) (map (ANum P) ps ++ map (AQubit P) is) = Ok (map (CDouble D) (map dbl ps) ++ map (CQubit D) is).
Proof.
  induction ps as [|p ps IH]; intros is; cbn; [|now rewrite IH]. induction is as [|i is IH]; cbn; [reflexivity|]. now rewrite IH.
Qed.
Lemma execute_gate c ext op i k : gate_instr P pnum c ext op i -> execute i = Ok k -> gate_call P D dbl c op k.
Proof.
  intros (t & n & is & e & Et & Hq & Hi & -> & _ & H). unfold QirModel.execute. cbn [i_type i_name i_args i_ext].
  destruct H as [-> | (-> & _ & u & -> & Hu)].
  - destruct (qis_function n) as [[f ks]|] eqn:Ef; [|discriminate]. unfold bind. destruct (convert P D dbl ks _) as [r|] eqn:Ec; [|discriminate]. intros [= <-].
    apply convert_args in Ec. destruct Ec as (-> & _). exists f, f, is. repeat split; auto. eapply base_function; eauto.
  - cbn [f_kinds f_name]. unfold bind. destruct (convert P D dbl _ _) as [r|] eqn:Ec; [|discriminate]. intros [= <-]. apply convert_args in Ec. destruct Ec as (-> & _).
    destruct (external_function _ _ Et) as (Hf & He). exists (qis_name n), u, is. repeat split; auto. destruct Hu as [->|Hu]; auto.
Qed.
Lemma execute_meas c x i k : meas_instr P c x i -> execute i = Ok k -> measure_call P D c x k.
Proof. intros (a & b & Ha & Hb & ->). cbn. intros [= <-]. exists a, b. repeat split; auto. Qed.
Lemma record_out c x i k : out_instr P c x i -> record_call P D i = Ok k -> output_call P D c x k.
Proof. intros (a & Ha & ->). cbn. intros [= <-]. exists a. auto. Qed.
Lemma Forall2_compose {A B C} (R : A -> B -> Prop) (Q : B -> C -> Prop) (T : A -> C -> Prop) : (forall a b c, R a b -> Q b c -> T a c) ->
  forall l m n, Forall2 R l m -> Forall2 Q m n -> Forall2 T l n.
Proof. intros H l m n H1. revert n. induction H1; intros n H2; inversion H2; subst; constructor; eauto. Qed.

Lemma body_calls_ok (m : qmodule) cs : body_calls P D dbl m = (cs, None) -> exists a b o, cs = init_call D :: a ++ b ++ o /\
  Forall2 (fun i k => execute i = Ok k) (q_body P D m) a /\ Forall2 (fun i k => execute i = Ok k) (q_meas P D m) b /\ Forall2 (fun i k => record_call P D i = Ok k) (q_out P D m) o.
Proof.
  unfold body_calls. destruct (emit P D execute (q_body P D m)) as [a [e|]] eqn:Ea; [discriminate|].
  destruct (emit P D execute (q_meas P D m)) as [b [e|]] eqn:Eb; [discriminate|].
  destruct (emit P D (record_call P D) (q_out P D m)) as [o eo] eqn:Eo. intros [= <- ->]. exists a, b, o. repeat split; now apply emit_ok.
Qed.
Lemma body_calls_back (m : qmodule) a b o :
  Forall2 (fun i k => execute i = Ok k) (q_body P D m) a -> Forall2 (fun i k => execute i = Ok k) (q_meas P D m) b -> Forall2 (fun i k => record_call P D i = Ok k) (q_out P D m) o ->
  body_calls P D dbl m = (init_call D :: a ++ b ++ o, None).
Proof. intros Ha Hb Ho. apply emit_ok in Ha, Hb, Ho. unfold body_calls. now rewrite Ha, Hb, Ho. Qed.

Lemma module_spec c ext m : qir_module P pnum D c ext = Ok m -> exists gates meas, c_ops P c = gates ++ meas /\
  Forall (fun op => ~ is_measurement P op) gates /\ Forall (is_measurement P) meas /\
  built P pnum D c ext gates meas (new_module P D (List.length (c_qubits P c)) (List.length (c_bits P c))) m.
Proof.
  unfold qir_module, bind. destruct (add_ops P pnum D c ext (c_ops P c) _) as [[met m']|] eqn:E; [|discriminate]. intros [= <-]. cbn. eapply add_ops_spec; eauto.
Qed.
Lemma compile_new c ext m gates meas : built P pnum D c ext gates meas (new_module P D (List.length (c_qubits P c)) (List.length (c_bits P c))) m ->
  forall m', compile P D dbl false true m = (m', Ok tt) -> exists cs, body_calls P D dbl m = (cs, None) /\ q_qir P D m' = Some [mkMain D cs true].
Proof.
  intros [_ _ _ _ _ Bm _ Bc _] m'. unfold compile, compile_now. rewrite Bc. cbn. rewrite Bm. cbn. destruct (body_calls P D dbl m) as [cs [e|]]; [discriminate|].
  cbn. intros [= <-]. eauto.
Qed.
Lemma calls_spec c ext t : to_qir_calls P pnum D dbl c ext = Ok t -> exists m gates meas cs, qir_module P pnum D c ext = Ok m /\ c_ops P c = gates ++ meas /\
  Forall (fun op => ~ is_measurement P op) gates /\ Forall (is_measurement P) meas /\
  built P pnum D c ext gates meas (new_module P D (List.length (c_qubits P c)) (List.length (c_bits P c))) m /\ body_calls P D dbl m = (cs, None) /\ t = [mkMain D cs true].
Proof.
  unfold to_qir_calls, bind. destruct (qir_module P pnum D c ext) as [m|] eqn:E; [|discriminate]. destruct (module_spec c ext m E) as (gates & meas & H1 & H2 & H3 & H4).
  destruct (compile P D dbl false true m) as [m' [[]|e]] eqn:Ec; [|discriminate]. destruct (compile_new c ext m gates meas H4 m' Ec) as (cs & Hb & ->). intros [= <-].
  exists m, gates, meas, cs. auto 10.
Qed.
Lemma compiled_calls c ext t : to_qir_calls P pnum D dbl c ext = Ok t ->
  exists gates meas a b o, c_ops P c = gates ++ meas /\
    Forall (fun op => ~ is_measurement P op) gates /\ Forall (is_measurement P) meas /\
    t = [mkMain D (Call D "__quantum__rt__initialize" [] :: a ++ b ++ o) true] /\
    Forall2 (gate_call P D dbl c) gates a /\
    Forall2 (measure_call P D c) (List.concat (map (measured P) meas)) b /\
    Forall2 (output_call P D c) (List.concat (map (measured P) meas)) o.
Proof.
  intros H. apply calls_spec in H. destruct H as (m & gates & meas & cs & _ & H1 & H2 & H3 & B & Hb & ->).
  apply body_calls_ok in Hb. destruct Hb as (a & b & o & -> & Ha & Hb & Ho). exists gates, meas, a, b, o. repeat split; auto.
  - destruct (bu_body _ _ _ _ _ _ _ _ _ B) as (gi & E & Hg). rewrite E in Ha. eapply Forall2_compose; [|exact Hg|exact Ha]. apply execute_gate.
  - destruct (bu_meas _ _ _ _ _ _ _ _ _ B) as (gi & E & Hg). rewrite E in Hb. eapply Forall2_compose; [|exact Hg|exact Hb]. apply execute_meas.
  - destruct (bu_out _ _ _ _ _ _ _ _ _ B) as (gi & E & Hg). rewrite E in Ho. eapply Forall2_compose; [|exact Hg|exact Ho]. apply record_out.
Qed.

(** ** A gate after a measurement *)
Lemma add_ops_app c ext : forall a b s, add_ops P pnum D c ext (a ++ b) s = (let? s' := add_ops P pnum D c ext a s in add_ops P pnum D c ext b s').
Proof. induction a as [|x a IH]; intros b s; cbn; [reflexivity|]. unfold bind in *. destruct (add_op P pnum D c ext x s); [apply IH|reflexivity]. Qed.
Lemma met_measurement c ext : forall ops s s', add_ops P pnum D c ext ops s = Ok s' -> fst s = true \/ Exists (is_measurement P) ops -> fst s' = true.
Proof.
  induction ops as [|op ops IH]; intros [met m] s'; cbn.
  - intros [= <-] [H|H]; [exact H|inversion H].
  - unfold bind. destruct (add_op P pnum D c ext op (met, m)) as [[met1 m1]|] eqn:E; [|discriminate]. intros Ha H. apply (IH _ _ Ha). apply add_op_spec in E.
    destruct E as (_ & [(A & -> & _)|(A & -> & -> & _)]); cbn; [auto|]. destruct H as [H|H]; [discriminate H|]. inversion H; subst; [contradiction|auto].
Qed.
Lemma qubit_args_regs (c c' : qcircuit) : c_qregs P c = c_qregs P c' -> forall qs, qubit_args P c qs = qubit_args P c' qs.
Proof. intros E. induction qs as [|q qs IH]; cbn; [reflexivity|]. now rewrite IH, E. Qed.
Lemma measure_all_regs (c c' : qcircuit) n : c_qregs P c = c_qregs P c' -> c_cregs P c = c_cregs P c' ->
  forall l m, measure_all P pnum D c n l m = measure_all P pnum D c' n l m.
Proof.
  intros E E'. induction l as [|[q b] l IH]; intros m; cbn; [reflexivity|]. rewrite E, E'. unfold bind. destruct (find q _); [|reflexivity]. destruct (find b _); [|reflexivity]. apply IH.
Qed.
Lemma add_ops_regs (c c' : qcircuit) ext : c_qregs P c = c_qregs P c' -> c_cregs P c = c_cregs P c' ->
  forall ops s, add_ops P pnum D c ext ops s = add_ops P pnum D c' ext ops s.
Proof.
  intros E E'. induction ops as [|op ops IH]; intros s; cbn; [reflexivity|].
  assert (Q : add_op P pnum D c ext op s = add_op P pnum D c' ext op s).
  { unfold add_op. destruct s as [met m]. destruct (dget String.eqb (o_name P op) to_qir) as [[t n]|]; [|reflexivity].
    destruct t; auto.
    - destruct (o_qubits P op) as [qs|]; [|reflexivity]. now rewrite (qubit_args_regs c c' E).
    - destruct (o_qubits P op) as [qs|]; [|reflexivity]. now rewrite (qubit_args_regs c c' E).
    - destruct (o_qubits P op) as [qs|]; [|reflexivity]. destruct (o_bits P op); [|reflexivity]. now rewrite (measure_all_regs c c' _ E E'). }
  rewrite Q. unfold bind. destruct (add_op P pnum D c' ext op s); [apply IH|reflexivity].
Qed.
Lemma late_gate c ext pre op post qregs cregs :
  c = mkC P qregs cregs (pre ++ op :: post) ->
  (exists m, qir_module P pnum D (mkC P qregs cregs pre) ext = Ok m) -> Exists (is_measurement P) pre ->
  (In (o_name P op) (map fst arity) /\ (ext = true \/ ~ In (o_name P op) extra)) ->
  qir_module P pnum D c ext = Err ValueError.
Proof.
  intros -> (m & Hm) He (Hn & Hx). unfold qir_module in *. cbn [c_ops] in *. rewrite add_ops_app.
  assert (Hc := add_ops_regs (mkC P qregs cregs (pre ++ op :: post)) (mkC P qregs cregs pre) ext eq_refl eq_refl pre).
  rewrite Hc. unfold bind in *. cbn [c_qubits c_bits c_qregs c_cregs] in *.
  unfold c_qubits, c_bits in *. cbn [c_qregs c_cregs] in *.
  destruct (add_ops P pnum D (mkC P qregs cregs pre) ext pre _) as [[met s]|e] eqn:E; [|discriminate].
  pose proof (met_measurement _ _ _ _ _ E (or_intror He)) as Hmet. cbn in Hmet. subst met. cbn [add_ops].
  assert (Q : add_op P pnum D (mkC P qregs cregs (pre ++ op :: post)) ext op (true, s) = Err ValueError).
  { unfold add_op. cbn in Hn, Hx. destruct Hn as [Hn|Hn];
    repeat match goal with Hn : _ \/ _ |- _ => destruct Hn as [Hn|Hn] | Hn : False |- _ => destruct Hn end; rewrite <- Hn in *; cbn;
      try reflexivity; try (destruct ext; [reflexivity|exfalso; tauto]); try (subst ext; reflexivity); exfalso; tauto. }
  now rewrite Q.
Qed.
End QirProofs2.

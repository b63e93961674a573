(** Proofs for C69. *)
From Coq Require Import List ZArith String Bool Arith Lia.
From Verif Require Import Py QirModel QirSpec QirProofs2 QirProofs4 QasmModel QasmSpec QasmProofs2 LinkModel
  RegisterModel WorldModel WorldSpec WorldSpec4 WorldReg WorldInv WorldInv2 WorldInv3 WorldWf2 WorldWf3 WorldInv5 WorldInv6 WorldInv7 WorldProofs2
  ReplayProofs WorldArity WorldArity2 WorldNumq LinkSpec LinkProofs ExportModel ExportSpec.
Import ListNotations.
Local Open Scope nat_scope.
Local Open Scope string_scope.

(** ** The table *)
Definition sizes (x : cls) (nq np : nat) : Prop :=
  (controlled x /\ nq = 2 \/ ~ controlled x /\ k_numq x = Some nq) /\
  (has_params (k_kind x) = false /\ k_nparams x = None /\ np = 0 \/ has_params (k_kind x) = true /\ k_nparams x = Some np).
Definition named_ok (x : cls) : Prop :=
  (k_kind x = KMeas /\ k_name x = "Measurement") \/
  (k_kind x <> KMeas /\ k_name x <> "Measurement" /\
   exists nq np, sizes x nq np /\ (k_name x = "Identity" \/ In (k_name x, (nq, np)) QirSpec.arity) /\
     exists q, In (k_name x, (q, (np, nq))) qasm_names).
Ltac pick := cbn; repeat first [left; reflexivity|right]; fail.
Lemma library_named k x : nth_error library_classes k = Some x -> named_ok x.
Proof.
  intros E. unfold library_classes, library in E. cbn [map fst] in E.
  do 23 (destruct k as [|k];
    [cbn in E; injection E as <-;
     first [left; split; reflexivity|right; split; [discriminate|split; [discriminate|
       eexists _, _; split;
         [split; [first [left; split; [first [left; reflexivity|right; reflexivity]|reflexivity]|right; split; [intros [H|H]; discriminate H|reflexivity]]
                 |first [left; split; [reflexivity|split; reflexivity]|right; split; reflexivity]]
         |split; [first [left; reflexivity|right; pick]|eexists; pick]]]]] |]).
  destruct k; discriminate.
Qed.

Section Export.
Variable P : Type.
Variable ptrue : P -> bool.
Variable peqb : P -> P -> bool.
Variable more : list cls.
Variable p : prog P.
Variable v : world P.
Hypothesis Hex : executes P ptrue peqb (own_ok P) p (start P (library_classes ++ more)%list).
Hypothesis Hvi : visits P ptrue peqb p (start P (library_classes ++ more)%list) v.
Hypothesis Hsm : small P v.

Lemma ex_reaches : reaches P ptrue peqb (own_ok P) v.
Proof. exists (library_classes ++ more)%list, p. auto. Qed.
Lemma ex_reaches_q : reaches P ptrue peqb (fun w y => own_methods P w y /\ keeps_registers P y) v.
Proof. eapply reaches_impl; [|exact ex_reaches]. unfold own_ok. tauto. Qed.

Lemma ex_class k x : nth_error library_classes k = Some x ->
  exists x', nth_error (w_cls v) k = Some x' /\ k_name x' = k_name x /\ k_kind x' = k_kind x /\ k_nparams x' = k_nparams x /\
    forall o y, nth_error (w_op v) o = Some y -> o_cls y = k ->
      o_params y = [] \/ has_params (k_kind x) = true /\ k_nparams x = Some (List.length (o_params y)).
Proof.
  intros E. assert (E' : nth_error (library_classes ++ more)%list k = Some x).
  { rewrite nth_error_app1; [exact E|]. apply nth_error_Some. congruence. }
  assert (A : PI P k (k_name x) (k_kind x) (k_nparams x) (k_ncontrol x) (start P (library_classes ++ more)%list)).
  { split; [exists x; auto|]. intros [|m]; discriminate. }
  destruct (PI_visits P ptrue peqb k _ _ _ _ p _ v A Hvi) as [(x' & H1 & H2 & H3 & H4 & _) F]. exists x'. auto.
Qed.

(** The sizes of a complete operation of a gate class. *)
Lemma ex_sizes o y : nth_error (w_op v) o = Some y -> complete P v y -> ~ has_name P v y "Measurement" ->
  exists k qs nq np, nth_error (w_cls v) (o_cls y) = Some k /\ k_kind k <> KMeas /\ o_qubits y = Some qs /\ List.length qs = nq /\
    List.length (o_params y) = np /\ (if has_params (k_kind k) then k_nparams k = Some np else o_params y = [] /\ k_nparams k = None) /\
    (k_name k = "Identity" \/ In (k_name k, (nq, np)) QirSpec.arity) /\ exists q, In (k_name k, (q, (np, nq))) qasm_names.
Proof.
  intros Ey [C1 (qs & Eq & C2) C3] Hm.
  assert (C1' : o_cls y < List.length library_classes) by (unfold library_classes; now rewrite map_length).
  destruct (nth_error library_classes (o_cls y)) as [k0|] eqn:El; [|apply nth_error_None in El; lia].
  destruct (ex_class _ _ El) as (k & Ek & Nm & Kd & Kp & Hpar). specialize (Hpar o y Ey eq_refl).
  assert (Hk : k_name k0 <> "Measurement"). { intros H. apply Hm. exists k. split; [exact Ek|congruence]. }
  destruct (library_named _ _ El) as [(_ & H)|(Km & _ & nq & np & [Sq Sp] & Ha & Hq)]; [contradiction|].
  assert (Lq : List.length qs = nq).
  { destruct Sq as [(Hc & ->)|(Hc & Hn)].
    - apply (C2 k Ek). unfold controlled in *. now rewrite Kd.
    - refine (arity_kept P ptrue peqb (library_classes ++ more)%list p v (o_cls y) k0 nq o y qs Hvi _ Hn _ Ey eq_refl Eq).
      + rewrite nth_error_app1; [exact El|exact C1'].
      + intros H. now destruct Hc. }
  exists k, qs, nq, np. rewrite Kd, Nm, Kp.
  assert (Lp : List.length (o_params y) = np /\ if has_params (k_kind k0) then k_nparams k0 = Some np else o_params y = [] /\ k_nparams k0 = None).
  { destruct Sp as [(Hh & Hn & ->)|(Hh & Hn)]; rewrite Hh in *.
    - destruct Hpar as [->|(H & _)]; [auto|discriminate].
    - destruct Hpar as [H|(_ & H)]; [|split; [congruence|exact Hn]]. exfalso. apply (C3 k Ek); [now rewrite Kd|exact H]. }
  destruct Lp as (L1 & L2). repeat (split; [assumption|]). exact Hq.
Qed.

Variables (c : nat) (x : circ).
Hypothesis Hc : nth_error (w_circ v) c = Some x.

Lemma ex_JQ : JQ P v.
Proof. apply (JQ_reach P ptrue peqb); [|exact Hsm]. eapply reaches_impl; [|exact ex_reaches_q]. simpl; tauto. Qed.
Lemma ex_qubits : Forall is_qubit (circuit_qubits x).
Proof. apply (JQ_separate P v c x ex_JQ Hc). Qed.
Lemma ex_own o y qs q : In o (c_ops x) -> nth_error (w_op v) o = Some y -> o_qubits y = Some qs -> In q qs -> In q (circuit_qubits x).
Proof.
  intros Ho Ey Eq Hq. destruct (reached_own P ptrue peqb v c x o y qs q ex_reaches Hsm Hc Ho Ey Eq Hq) as (l & r & Hr & Hi).
  unfold circuit_qubits, all_items. apply in_concat. exists (contents r). split; [|exact Hi]. apply in_map_iff. exists (l, r). auto.
Qed.
Lemma ex_ids o y qs : In o (c_ops x) -> nth_error (w_op v) o = Some y -> o_qubits y = Some qs ->
  exists js, all_some qubit_id qs = Some js /\ qs = map IQubit js /\ forall q, In q js -> In (IQubit q) (circuit_qubits x).
Proof.
  intros Ho Ey Eq. destruct (read_qubits qs) as (js & E & ->).
  { rewrite Forall_forall. intros q Hq. pose proof ex_qubits as F. rewrite Forall_forall in F. eapply F, ex_own; eauto. }
  exists js. split; [exact E|]. split; [reflexivity|]. intros q Hq. eapply ex_own; eauto. apply in_map_iff. eauto.
Qed.
Lemma ex_exists o : In o (c_ops x) -> exists y, nth_error (w_op v) o = Some y.
Proof.
  intros Ho. pose proof (wf_ops _ _ (WF_reach _ _ _ _ _ ex_reaches) c x o Hc Ho) as L.
  destruct (nth_error (w_op v) o) eqn:E; [eauto|]. apply nth_error_None in E. lia.
Qed.

(** Registers as lists of numbers *)
Lemma reg_read (f : item -> option nat) (g : nat -> item) (isg : item -> Prop) rs :
  (forall l, Forall isg l -> exists js, all_some f l = Some js /\ l = map g js) ->
  Forall (fun q => regok (snd q)) rs -> Forall isg (all_items rs) ->
  exists l, all_some (fun q => reg_ids f (snd q)) rs = Some l /\ Forall2 (fun q js => contents (snd q) = map g js) rs l.
Proof.
  intros Hr. induction rs as [|[lb r] rs IH]; intros Ho Hi; [exists []; split; [reflexivity|constructor]|].
  inversion Ho as [|? ? O1 O2]; subst. change (all_items ((lb, r) :: rs)) with (contents r ++ all_items rs)%list in Hi.
  apply Forall_app in Hi. destruct Hi as [I1 I2]. destruct (IH O2 I2) as (l & El & Fl).
  destruct (Hr _ I1) as (js & Ej & Hj). exists (js :: l). cbn [all_some snd]. unfold reg_ids at 1.
  cbn [snd] in O1. rewrite (regok_items r O1), Ej, El. split; [reflexivity|]. constructor; [exact Hj|exact Fl].
Qed.

Lemma reg_all (g : nat -> item) (rs : list (label * register)) l : Forall2 (fun q js => contents (snd q) = map g js) rs l -> all_items rs = map g (List.concat l).
Proof.
  induction 1 as [|[lb r] js rs l H _ IH]; [reflexivity|]. change (all_items ((lb, r) :: rs)) with (contents r ++ all_items rs)%list.
  cbn [List.concat]. rewrite map_app, IH. cbn [snd] in H. now rewrite H.
Qed.
Lemma reg_in (g : nat -> item) (rs : list (label * register)) l q : (forall a b, g a = g b -> a = b) ->
  Forall2 (fun q js => contents (snd q) = map g js) rs l -> In (g q) (all_items rs) -> In q (List.concat l).
Proof. intros Hg F H. rewrite (reg_all g rs l F) in H. apply in_map_iff in H. destruct H as (q' & E & H). now rewrite <- (Hg _ _ E). Qed.
Lemma reg_place (g : nat -> item) (rs : list (label * register)) l q i :
  Forall2 (fun q js => contents (snd q) = map g js) rs l -> in_place l q i -> at_place rs (g q) i.
Proof.
  intros F (r & Hr & Hn). induction F as [|[lb r'] js rs l H _ IH]; [easy|]. destruct Hr as [->|Hr].
  - exists lb, r'. split; [now left|]. cbn [snd] in H. rewrite H. now apply map_nth_error.
  - destruct (IH Hr) as (l0 & r0 & H0 & H1). exists l0, r0. split; [now right|exact H1].
Qed.
Lemma Forall2_impl' {A B} (Q R : A -> B -> Prop) l m : (forall a b, In a l -> Q a b -> R a b) -> Forall2 Q l m -> Forall2 R l m.
Proof.
  intros H F. induction F as [|a b l m H0 _ IH]; constructor; [apply H; [now left|exact H0]|]. apply IH. intros a' b' Ha. apply H. now right.
Qed.
Lemma split_unique {A} (Q : A -> Prop) (g m g' m' : list A) : (g ++ m = g' ++ m')%list -> Forall (fun a => ~ Q a) g -> Forall Q m ->
  Forall (fun a => ~ Q a) g' -> Forall Q m' -> g = g' /\ m = m'.
Proof.
  revert g'. induction g as [|a g IH]; intros [|a' g'] E Hg Hm Hg' Hm'; cbn in E.
  - auto.
  - exfalso. subst m. inversion Hm; subst. inversion Hg'; subst. contradiction.
  - exfalso. subst m'. inversion Hm'; subst. inversion Hg; subst. contradiction.
  - injection E as <- E. inversion Hg; inversion Hg'; subst. destruct (IH g' E) as (-> & ->); auto.
Qed.

(** ** QIR *)
Variable D : Type.
Variable dbl : param P -> D.
Variable pnum : param P -> bool.
Variable ext : bool.

Definition read_as (o : nat) (q : qop (param P)) : Prop :=
  exists y k js, nth_error (w_op v) o = Some y /\ nth_error (w_cls v) (o_cls y) = Some k /\ o_qubits y = Some (map IQubit js) /\
    QirModel.o_name _ q = k_name k /\ QirModel.o_qubits _ q = Some js /\ (k_kind k <> KMeas -> params_of _ q = o_params y) /\
    (forall q, In q js -> In (IQubit q) (circuit_qubits x)) /\
    (k_kind k = KMeas -> exists cs, o_bits y = Some (map IBit cs) /\ QirModel.o_bits _ q = Some cs).

Lemma ex_gate o y qr : Forall2 (fun q js => contents (snd q) = map IQubit js) (s_regs (c_q x)) qr ->
  In o (c_ops x) -> nth_error (w_op v) o = Some y -> compilable P pnum ext v y ->
  exists q, qir_op P v o = Some q /\ read_as o q /\ forall br ops, writable _ pnum (mkC _ qr br ops) ext q.
Proof.
  intros Fq Ho Ey (Cm & Hm & Hid & Hp & Hx). destruct (ex_sizes o y Ey Cm Hm) as (k & qs & nq & np & Ek & Km & Eq & Lq & Lp & Hpar & Hn & _).
  destruct (ex_ids o y qs Ho Ey Eq) as (js & Ej & -> & Hin).
  pose proof (numbers_kept P ptrue peqb _ p v o y _ Hex Hvi Ey Eq) as En.
  assert (Eq' : qir_op P v o = Some (QirModel.mkOp (param P) (k_name k) (if has_params (k_kind k) then Some (o_params y) else None) (List.length (map IQubit js))
      (match k_nparams k with Some m => if has_params (k_kind k) then m else 0 | None => 0 end) (Some js) None)).
  { unfold qir_op. rewrite Ey, Ek, En, Eq. cbn [opt_all]. rewrite Ej. cbn [option_map]. destruct (k_kind k); try reflexivity. now destruct Km. }
  assert (Ep : params_of (param P) (QirModel.mkOp (param P) (k_name k) (if has_params (k_kind k) then Some (o_params y) else None) (List.length (map IQubit js))
      (match k_nparams k with Some m => if has_params (k_kind k) then m else 0 | None => 0 end) (Some js) None) = o_params y).
  { unfold params_of. cbn [QirModel.o_params]. destruct (has_params (k_kind k)); [reflexivity|]. now destruct Hpar as (-> & _). }
  eexists. split; [exact Eq'|]. split.
  - exists y, k, js. repeat (split; [first [assumption|reflexivity|intros _; exact Ep]|]). intros H. contradiction.
  - intros br ops. split; [|split; [|split; [|split]]].
    + unfold is_measurement. cbn [QirModel.o_name]. intros H. apply Hm. exists k. auto.
    + right. exists nq, np. rewrite Ep. cbn [QirModel.o_name QirModel.o_nq QirModel.o_np QirModel.o_qubits].
      destruct Hn as [Hn|Hn]; [destruct Hid; exists k; auto|]. split; [exact Hn|]. split; [exact Lq|]. split; [|split].
      * destruct (has_params (k_kind k)); [now rewrite Hpar|]. destruct Hpar as (Hpar & ->). rewrite Hpar in Lp. now rewrite <- Lp.
      * intros qs [= <-]. now rewrite map_length in Lq.
      * exact Lp.
    + rewrite Ep. exact Hp.
    + exists js. split; [reflexivity|]. rewrite Forall_forall. intros q Hq. unfold c_qubits. cbn [c_qregs].
      apply (reg_in IQubit (s_regs (c_q x))); [congruence|exact Fq|]. now apply Hin.
    + cbn [QirModel.o_name]. rewrite Ep. intros H. apply (Hx (k_name k)); [exists k; auto|exact H].
Qed.

Lemma meas_kind y k : o_cls y < List.length library -> nth_error (w_cls v) (o_cls y) = Some k -> has_name P v y "Measurement" -> k_kind k = KMeas.
Proof.
  intros Hcl Ek (k1 & Ek1 & Nk). rewrite Ek in Ek1. injection Ek1 as <-.
  assert (C1' : o_cls y < List.length library_classes) by (unfold library_classes; now rewrite map_length).
  destruct (nth_error library_classes (o_cls y)) as [k0|] eqn:El; [|apply nth_error_None in El; lia].
  destruct (ex_class _ _ El) as (k' & Ek' & Nm & Kd & _). rewrite Ek in Ek'. injection Ek' as <-.
  destruct (library_named _ _ El) as [(H & _)|(_ & H & _)]; [|congruence]. now rewrite Kd, H.
Qed.
Lemma combine_map2 {A B C E} (f : A -> C) (g : B -> E) (l : list A) (m : list B) :
  map (fun z => (f (fst z), g (snd z))) (combine l m) = combine (map f l) (map g m).
Proof. revert m. induction l as [|a l IH]; intros [|b m]; try reflexivity. cbn. now rewrite IH. Qed.
Lemma ex_meas o y qr br : Forall2 (fun q js => contents (snd q) = map IQubit js) (s_regs (c_q x)) qr ->
  Forall2 (fun q js => contents (snd q) = map IBit js) (s_regs (c_b x)) br -> Forall is_bit (circuit_bits x) ->
  In o (c_ops x) -> nth_error (w_op v) o = Some y -> measurable P v x y ->
  exists q, qir_op P v o = Some q /\ read_as o q /\ forall ops, readable _ (mkC _ qr br ops) q.
Proof.
  intros Fq Fb Hbit Ho Ey ((k & Ek & Nk) & Hcl & (qs & Eq) & bs & Eb & Hb).
  destruct (ex_ids o y qs Ho Ey Eq) as (js & Ej & -> & Hin).
  destruct (read_bits bs) as (cs & Ec & ->).
  { rewrite Forall_forall in *. intros b H. apply Hbit, Hb, H. }
  assert (Km : k_kind k = KMeas) by (apply (meas_kind y k Hcl Ek); exists k; auto). pose proof (numbers_kept P ptrue peqb _ p v o y _ Hex Hvi Ey Eq) as En.
  eexists. split.
  { unfold qir_op. rewrite Ey, Ek, En, Eq. cbn [opt_all]. rewrite Ej. cbn [option_map]. rewrite Km, Eb. cbn [opt_all]. rewrite Ec. cbn [option_map]. reflexivity. }
  split.
  - exists y, k, js. repeat (split; [first [assumption|reflexivity|intros H; contradiction]|]). intros _. exists cs. auto.
  - intros ops. split; [exact Nk|]. exists js, cs. cbn [QirModel.o_qubits QirModel.o_bits]. split; [reflexivity|]. split; [reflexivity|]. split; rewrite Forall_forall.
    + intros q Hq. apply (reg_in IQubit (s_regs (c_q x))); [congruence|exact Fq|]. now apply Hin.
    + intros b Hb'. apply (reg_in IBit (s_regs (c_b x))); [congruence|exact Fb|]. rewrite Forall_forall in Hb. apply Hb. now apply in_map.
Qed.

Hypothesis Hbit : Forall is_bit (circuit_bits x).
Hypothesis Hbreg : Forall (fun q => regok (snd q)) (s_regs (c_b x)).
Hypothesis Hbits : exists r w', bits c v = (w', Ok r).

Lemma ex_qir gates meas : c_ops x = (gates ++ meas)%list ->
  (forall o y, In o gates -> nth_error (w_op v) o = Some y -> compilable P pnum ext v y) ->
  (forall o y, In o meas -> nth_error (w_op v) o = Some y -> measurable P v x y) ->
  exists q a b r ms, qir_circuit P v c = Some q /\
    to_qir_calls (param P) pnum D dbl q ext = Ok [mkMain D (Call D "__quantum__rt__initialize" [] :: a ++ b ++ r) true]%list /\
    Forall2 (called P D dbl v x) gates a /\ Forall2 (measures P v) meas ms /\
    Forall2 (measured_call D x) (List.concat ms) b /\ Forall2 (recorded_call D x) (List.concat ms) r.
Proof.
  intros Hops Hg Hm.
  destruct (JQ_nth _ _ _ _ ex_JQ Hc) as [RQ _].
  destruct (reg_read qubit_id IQubit is_qubit (s_regs (c_q x)) read_qubits (ro_regs _ _ RQ) ex_qubits) as (qr & Eqr & Fqr).
  destruct (reg_read bit_id IBit is_bit (s_regs (c_b x)) read_bits Hbreg Hbit) as (br & Ebr & Fbr).
  destruct (all_some_rel (qir_op P v) (fun o q => read_as o q /\ forall br ops, writable _ pnum (mkC _ qr br ops) ext q) gates) as (gs & Egs & Fgs).
  { intros o Ho. assert (Ho' : In o (c_ops x)) by (rewrite Hops; apply in_or_app; auto). destruct (ex_exists o Ho') as (y & Ey).
    apply (ex_gate o y qr Fqr Ho' Ey). now apply (Hg o). }
  destruct (all_some_rel (qir_op P v) (fun o q => read_as o q /\ forall ops, readable _ (mkC _ qr br ops) q) meas) as (mo & Emo & Fmo).
  { intros o Ho. assert (Ho' : In o (c_ops x)) by (rewrite Hops; apply in_or_app; auto). destruct (ex_exists o Ho') as (y & Ey).
    apply (ex_meas o y qr br Fqr Fbr Hbit Ho' Ey). now apply (Hm o). }
  set (q := mkC (param P) qr br (gs ++ mo)%list).
  assert (Eq : qir_circuit P v c = Some q).
  { unfold qir_circuit. destruct (C13_q P ptrue peqb v c x ex_reaches_q Hsm Hc) as (r & w' & Er & _). destruct Hbits as (rb & wb & Erb).
    rewrite Hc, Er, Erb. cbn [snd]. rewrite Eqr, Ebr, Hops.
    assert (Ea : all_some (qir_op P v) (gates ++ meas)%list = Some (gs ++ mo)%list).
    { clear -Emo Egs. revert gs Egs. induction gates as [|o l IH]; intros gs Egs; cbn in *.
      - injection Egs as <-. exact Emo.
      - destruct (qir_op P v o); [|discriminate]. destruct (all_some (qir_op P v) l); [|discriminate]. injection Egs as <-. now rewrite (IH _ eq_refl). }
    now rewrite Ea. }
  assert (Wg : Forall (writable _ pnum q ext) gs). { clear -Fgs. induction Fgs as [|o s l l' [_ H] _ IH]; constructor; [apply H|exact IH]. }
  assert (Wm : Forall (readable _ q) mo). { clear -Fmo. induction Fmo as [|o s l l' [_ H] _ IH]; constructor; [apply H|exact IH]. }
  destruct (compiles (param P) pnum D dbl q ext gs mo eq_refl Wg Wm) as (t & Et).
  destruct (compiled_calls (param P) pnum D dbl q ext t Et) as (g' & m' & a & b & r & Eo & Ng & Nm & -> & Fa & Fb & Fr).
  destruct (split_unique (is_measurement (param P)) gs mo g' m') as (<- & <-); [exact Eo| | |exact Ng|exact Nm|].
  { eapply Forall_impl; [|exact Wg]. intros op H. apply H. }
  { eapply Forall_impl; [|exact Wm]. intros op H. apply H. }
  exists q, a, b, r, (map (fun op => map (fun z => (IQubit (fst z), IBit (snd z))) (measured (param P) op)) mo).
  split; [exact Eq|]. split; [exact Et|].
  assert (Pq : forall z i, in_place (c_qregs _ q) z i -> at_place (s_regs (c_q x)) (IQubit z) i) by (intros; eapply reg_place; eauto).
  assert (Pb : forall z i, in_place (c_cregs _ q) z i -> at_place (s_regs (c_b x)) (IBit z) i) by (intros; eapply reg_place; eauto).
  assert (Cc : List.concat (map (fun op => map (fun z => (IQubit (fst z), IBit (snd z))) (measured (param P) op)) mo)
    = map (fun z => (IQubit (fst z), IBit (snd z))) (List.concat (map (measured (param P)) mo))).
  { now rewrite concat_map, map_map. }
  split; [|split; [|split]].
  - clear -Fa Fgs Pq Ng Hg Hvi. revert a Fa. induction Fgs as [|o s l l' [H _] _ IH]; intros a Fa; inversion Fa as [|? k0 ? a' G1 G2]; subst; constructor.
    + destruct H as (y & k & js & H1 & H2 & H3 & H4 & H5 & H6 & _). destruct G1 as (f & u & is & I1 & I2 & I3 & I4).
      assert (Km : k_kind k <> KMeas).
      { destruct (Hg o y (or_introl eq_refl) H1) as (Cm & Hm & _). destruct (ex_sizes o y H1 Cm Hm) as (k' & _ & _ & _ & Ek & Km & _). congruence. }
      exists y, (k_name k), (map IQubit js), f, u, is. rewrite H4 in I1, I2. rewrite (H6 Km) in I3.
      split; [exact H1|]. split; [exists k; auto|]. split; [exact H3|]. split; [exact I1|]. split; [exact I2|]. split; [exact I3|].
      unfold qubits_of in I4. rewrite H5 in I4. clear -I4 Pq. induction I4; constructor; auto.
    + apply IH; first [exact G2|now inversion Ng|intros o0 y0 Ho0; apply Hg; now right].
  - clear -Fmo Hm Hvi. induction Fmo as [|o s l l' [H Hr] _ IH]; constructor.
    + destruct H as (y & k & js & H1 & H2 & H3 & H4 & H5 & _ & _ & H8). destruct (Hm o y (or_introl eq_refl) H1) as (Nk & Hcl & _).
      destruct (H8 (meas_kind y k Hcl H2 Nk)) as (cs & Eb & Ec).
      exists y, (map IQubit js), (map IBit cs). split; [exact H1|]. split; [exact Nk|]. split; [exact H3|]. split; [exact Eb|].
      unfold measured, qubits_of, bits_of. rewrite H5, Ec. apply combine_map2.
    + apply IH. intros o' y' Ho'. apply Hm. now right.
  - rewrite Cc. clear -Fb Pq Pb. induction Fb as [|z k l l' (i & j & H1 & H2 & H3) _ IH]; constructor; [|exact IH].
    exists i, j. cbn [fst snd]. auto.
  - rewrite Cc. clear -Fr Pb. induction Fr as [|z k l l' (j & H1 & H2) _ IH]; constructor; [|exact IH]. exists j. cbn [fst snd]. auto.
Qed.
End Export.

(** ** OpenQASM *)
Lemma combine_fst {A B} (l : list A) : forall m : list B, List.length m = List.length l -> map fst (combine l m) = l.
Proof. induction l as [|a l IH]; intros [|b m] H; try discriminate H; [reflexivity|]. cbn. f_equal. apply IH. now injection H. Qed.
Lemma combine_snd {A B} (l : list A) : forall m : list B, List.length m = List.length l -> map snd (combine l m) = m.
Proof. induction l as [|a l IH]; intros [|b m] H; try discriminate H; [reflexivity|]. cbn. f_equal. apply IH. now injection H. Qed.
Section Qasm.
Variable P : Type.
Variable ptrue : P -> bool.
Variable peqb : P -> P -> bool.
Variable more : list cls.
Variable p : prog P.
Variable v : world P.
Hypothesis Hex : executes P ptrue peqb (own_ok P) p (start P (library_classes ++ more)%list).
Hypothesis Hvi : visits P ptrue peqb p (start P (library_classes ++ more)%list) v.
Hypothesis Hsm : small P v.
Variables (c : nat) (x : circ).
Hypothesis Hc : nth_error (w_circ v) c = Some x.
Variable show : param P -> string.
Variable lstr : label -> string.

Definition read_qasm (o : nat) (q : aop (param P)) : Prop :=
  exists y k js, nth_error (w_op v) o = Some y /\ nth_error (w_cls v) (o_cls y) = Some k /\ o_qubits y = Some (map IQubit js) /\
    a_class _ q = Class (k_name k) /\ a_params _ q = o_params y /\ a_qubits _ q = Some js /\
    (forall q, In q js -> In (IQubit q) (circuit_qubits x)) /\ shaped _ q.

Lemma ex_qasm_op o y : In o (c_ops x) -> nth_error (w_op v) o = Some y -> complete P v y -> ~ has_name P v y "Measurement" ->
  exists q, qasm_op P v o = Some q /\ read_qasm o q.
Proof.
  intros Ho Ey Cm Hm. destruct (ex_sizes P ptrue peqb more p v Hvi o y Ey Cm Hm) as (k & qs & nq & np & Ek & Km & Eq & Lq & Lp & Hpar & _ & n & Hn).
  destruct (ex_ids P ptrue peqb more p v Hex Hvi Hsm c x Hc o y qs Ho Ey Eq) as (js & Ej & -> & Hin).
  eexists. split; [unfold qasm_op; rewrite Ey, Ek, Eq; cbn [opt_all]; rewrite Ej; reflexivity|].
  exists y, k, js. repeat (split; [first [assumption|reflexivity]|]). unfold shaped. cbn [a_class a_params a_qubits].
  exists n, np, nq. split; [exact Hn|]. split; [exact Lp|]. intros qs [= <-] _. now rewrite map_length in Lq.
Qed.

Lemma label_read rs l : Forall (fun q => regok (snd q)) rs -> all_some (fun q => reg_ids qubit_id (snd q)) rs = Some l ->
  all_some label_ids rs = Some (combine (map fst rs) l) /\ List.length l = List.length rs.
Proof.
  revert l. induction rs as [|[lb r] rs IH]; intros l Ho E; cbn in E; [injection E as <-; auto|]. inversion Ho as [|? ? O1 O2]; subst.
  destruct (reg_ids qubit_id r) as [js|] eqn:Er; [|discriminate]. destruct (all_some _ rs) as [l'|] eqn:El; [|discriminate]. injection E as <-.
  destruct (IH l' O2 eq_refl) as (IH1 & IH2). cbn. unfold label_ids at 1. cbn. rewrite Er. cbn. rewrite IH1. auto.
Qed.
Lemma places_read rs : Forall (fun q => regok (snd q)) rs ->
  all_some label_places rs = Some (map (fun q => (fst q, seq 0 (List.length (contents (snd q))))) rs).
Proof.
  induction rs as [|[lb r] rs IH]; intros Ho; [reflexivity|]. inversion Ho as [|? ? O1 O2]; subst. cbn [all_some map fst snd].
  unfold label_places at 1. cbn [snd fst] in *. now rewrite (regok_items r O1), (IH O2).
Qed.

Hypothesis Hbreg : Forall (fun q => regok (snd q)) (s_regs (c_b x)).
Hypothesis Hops : forall o y, In o (c_ops x) -> nth_error (w_op v) o = Some y ->
  complete P v y /\ ~ has_name P v y "Measurement" /\ Forall plain (map show (o_params y)).

Lemma ex_qasm labels defs :
  (labels = true -> Forall (fun l => label_true l = true /\ word (lstr l)) (map fst (s_regs (c_q x)) ++ map fst (s_regs (c_b x))) /\
     NoDup (map lstr (map fst (s_regs (c_q x)) ++ map fst (s_regs (c_b x))))) ->
  exists a s ds qs cs ss, qasm_circuit P v c = Some a /\
    to_qasm (param P) show label label_true lstr "2.0" labels defs a = Ok s /\
    QasmSpec.read s = Some (map LDef ds ++ map LQreg qs ++ map LCreg cs ++ map LStmt ss)%list /\
    NoDup (map fst (qs ++ cs)) /\ map snd qs = map (fun r => List.length (contents (snd r))) (s_regs (c_q x)) /\
    map snd cs = map (fun r => List.length (contents (snd r))) (s_regs (c_b x)) /\
    Forall2 (stated P show qs v x) (c_ops x) ss /\
    exists ns, Forall2 (named_op P v) (c_ops x) ns /\ ds = (if defs then List.concat (map offered ns) else []).
Proof.
  intros Hl.
  pose proof (ex_JQ P ptrue peqb more p v Hex Hvi Hsm) as J. destruct (JQ_nth _ _ _ _ J Hc) as [RQ _].
  pose proof (ex_qubits P ptrue peqb more p v Hex Hvi Hsm c x Hc) as Hq.
  destruct (reg_read qubit_id IQubit is_qubit (s_regs (c_q x)) read_qubits (ro_regs _ _ RQ) Hq) as (qr & Eqr & Fqr).
  destruct (label_read _ _ (ro_regs _ _ RQ) Eqr) as (El & Ll).
  destruct (all_some_rel (qasm_op P v) read_qasm (c_ops x)) as (os & Eos & Fos).
  { intros o Ho. destruct (ex_exists P ptrue peqb more p v Hex Hvi c x Hc o Ho) as (y & Ey). destruct (Hops o y Ho Ey) as (H1 & H2 & _). now apply (ex_qasm_op o y). }
  set (a := mkAC (param P) label (combine (map fst (s_regs (c_q x))) qr) (map (fun q => (fst q, seq 0 (List.length (contents (snd q))))) (s_regs (c_b x))) os).
  assert (Ea : qasm_circuit P v c = Some a).
  { unfold qasm_circuit. destruct (C13_q P ptrue peqb v c x (ex_reaches_q P ptrue peqb more p v Hex Hvi) Hsm Hc) as (r & w' & Er & _).
    rewrite Hc, Er. cbn [snd]. now rewrite El, (places_read _ Hbreg), Eos. }
  assert (Sq : map snd (a_qregs _ _ a) = qr) by (cbn; apply combine_snd; now rewrite map_length).
  assert (Sf : map fst (a_qregs _ _ a) = map fst (s_regs (c_q x))) by (cbn; apply combine_fst; now rewrite map_length).
  assert (Cq : map IQubit (aqubits _ _ a) = circuit_qubits x). { unfold aqubits. rewrite Sq. symmetry. apply reg_all, Fqr. }
  assert (H1 : Forall (shaped (param P)) (a_ops _ _ a)). { cbn. clear -Fos. induction Fos as [|o s l l' (y & k & js & H) _ IH]; constructor; [apply H|exact IH]. }
  assert (H2 : Forall (fun op => incl (the_qubits (param P) op) (aqubits _ _ a)) (a_ops _ _ a)).
  { cbn [a_ops a]. unfold aqubits. rewrite Sq. clear -Fos Fqr. induction Fos as [|o s l l' (y & k & js & H) _ IH]; constructor; [|exact IH].
    destruct H as (_ & _ & _ & _ & _ & H & H' & _). unfold the_qubits. rewrite H. intros q Hq. apply (reg_in IQubit (s_regs (c_q x))); [congruence|exact Fqr|auto]. }
  assert (H3 : Forall (fun op => Forall plain (map show (a_params _ op))) (a_ops _ _ a)).
  { cbn. assert (G : forall o, In o (c_ops x) -> forall y, nth_error (w_op v) o = Some y -> Forall plain (map show (o_params y))) by (intros o Ho y Ey; now apply (Hops o y)).
    clear -Fos G. induction Fos as [|o s l l' (y & k & js & H) _ IH]; constructor.
    - destruct H as (H & _ & _ & _ & H' & _). rewrite H'. apply (G o (or_introl eq_refl) y H).
    - apply IH. intros o' Ho'. apply G. now right. }
  assert (H4 : labelled (param P) label label_true lstr labels a).
  { intros E. destruct (Hl E) as (L1 & L2). assert (M : map fst (a_qregs _ _ a ++ a_cregs _ _ a) = (map fst (s_regs (c_q x)) ++ map fst (s_regs (c_b x)))%list).
    { rewrite map_app, Sf. f_equal. cbn. now rewrite map_map. }
    rewrite <- M in L1, L2. split.
    - rewrite Forall_forall in *. intros z Hz. apply L1. now apply in_map.
    - now rewrite map_map in L2. }
  destruct (writes (param P) show label label_true lstr labels defs a H1 H2) as (s & Es).
  destruct (text_read (param P) show label label_true lstr "2.0" labels defs a s Es H4 H1 H2 H3) as (ds & qs & cs & ss & R1 & R2 & R3 & R4 & R5 & R6).
  exists a, s, ds, qs, cs, ss. split; [exact Ea|]. split; [exact Es|]. split; [exact R1|]. split; [exact R2|]. split; [|split; [|split]].
  - rewrite R3. rewrite <- (map_map snd (@List.length nat)), Sq. clear -Fqr. induction Fqr as [|q js l l' H _ IH]; [reflexivity|]. cbn. now rewrite H, map_length, IH.
  - rewrite R4. cbn. rewrite map_map. cbn. apply map_ext. intros z. apply seq_length.
  - cbn in R5. rewrite <- Cq in *. clear -R5 Fos Cq. revert ss R5. induction Fos as [|o op l l' (y & k & js & H) _ IH]; intros ss R5; inversion R5 as [|? st ? ss' S1 S2]; subst; constructor; [|now apply IH].
    destruct H as (H1 & H2 & H3 & H4 & H5 & H6 & _). destruct S1 as (S1 & S3 & S4). rewrite H4 in S1, S3. unfold the_qubits in S4. rewrite H6 in S4.
    exists y, (k_name k), (map IQubit js). split; [exact H1|]. split; [exists k; auto|]. split; [exact H3|]. split; [exact S1|]. split; [now rewrite S3, H5|].
    rewrite <- Cq. clear -S4. induction S4 as [|q t l m (i & G1 & G2) _ IH]; constructor; [|exact IH]. exists i. split; [exact G1|]. now apply map_nth_error.
  - rewrite R6. cbn [a_ops a]. clear -Fos. assert (G : exists ns, Forall2 (named_op P v) (c_ops x) ns /\ map (definition_of (param P)) os = map offered ns).
    { induction Fos as [|o op l l' (y & k & js & H) _ (ns & IH1 & IH2)]; [exists []; split; [constructor|reflexivity]|].
      destruct H as (H1 & H2 & _ & H4 & _). exists (k_name k :: ns). split; [constructor; [exists y; split; [exact H1|now exists k]|exact IH1]|].
      cbn [map]. rewrite IH2. f_equal. unfold definition_of, offered. rewrite H4. cbn [dget].
      repeat (destruct (String.eqb (k_name k) _); [reflexivity|]). reflexivity. }
    destruct G as (ns & G1 & G2). exists ns. split; [exact G1|]. now rewrite G2.
Qed.
End Qasm.

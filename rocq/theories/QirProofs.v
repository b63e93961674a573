(** Proofs about compiling to QIR. *)
From Coq Require Import List String Bool Arith Ascii Lia.
From Verif Require Import Py QirModel QirSpec.
Import ListNotations.
Local Open Scope string_scope.
Local Open Scope list_scope.

Arguments qis_name : simpl never.
Arguments unique : simpl never.
Arguments add_op : simpl never.

Lemma posn_some q l : forall k, posn q l = Some k -> nth_error l k = Some q.
Proof.
  induction l as [|x l IH]; intros k; cbn; [discriminate|]. destruct (Nat.eqb_spec q x) as [->|H].
  - intros [= <-]. reflexivity.
  - destruct (posn q l) as [j|] eqn:E; cbn; [|discriminate]. intros [= <-]. cbn. now apply IH.
Qed.
Lemma posn_in q l : In q l -> exists k, posn q l = Some k.
Proof.
  induction l as [|x l IH]; intros H; [destruct H|]. cbn. destruct (Nat.eqb_spec q x) as [->|Hn]; [eauto|].
  destruct H as [->|H]; [now destruct Hn|]. destruct (IH H) as (k & ->). cbn. eauto.
Qed.
Lemma find_at_some q rs : forall i x, find_at i q rs = Ok x -> in_place rs q (snd x).
Proof.
  induction rs as [|r rs IH]; intros i x; cbn; [discriminate|]. destruct (posn q r) as [k|] eqn:E.
  - intros [= <-]. exists r. split; [now left|]. now apply posn_some.
  - intros H. destruct (IH _ _ H) as (r' & H1 & H2). exists r'. split; [now right|exact H2].
Qed.
Lemma find_at_in q rs : In q (List.concat rs) -> forall i, exists x, find_at i q rs = Ok x.
Proof.
  induction rs as [|r rs IH]; cbn; intros H i; [destruct H|]. destruct (posn q r) as [k|] eqn:E; [eauto|].
  apply in_app_or in H. destruct H as [H|H]; [|eauto]. destruct (posn_in q r H) as (k & Hk). congruence.
Qed.

Section QirProofs.
Variable P : Type.
Variable pnum : P -> bool.
Variable D : Type.
Variable dbl : P -> D.
Notation qop := (qop P).
Notation qcircuit := (qcircuit P).
Notation instr := (instr P).
Notation qmodule := (qmodule P D).
Notation ANum := (ANum P).
Notation AQubit := (AQubit P).
Notation AResult := (AResult P).
Notation mkI := (mkI P).

Lemma qubit_args_spec (c : qcircuit) : forall qs qa, qubit_args P c qs = Ok qa -> exists is, qa = map AQubit is /\ Forall2 (in_place (c_qregs P c)) qs is.
Proof.
  induction qs as [|q qs IH]; intros qa; cbn.
  - intros [= <-]. exists []. split; [reflexivity|constructor].
  - unfold bind. destruct (find q (c_qregs P c)) as [x|] eqn:E; [|discriminate]. destruct (qubit_args P c qs) as [r|]; [|discriminate]. intros [= <-].
    destruct (IH r eq_refl) as (is & -> & H). exists (snd x :: is). split; [reflexivity|]. constructor; [|exact H]. eapply find_at_some; eauto.
Qed.

(** ** What [qir_module] builds *)
Definition named (n u : string) : Prop := u = qis_name n \/ exists s, u = (qis_name n ++ "." ++ s)%string.
Definition gate_instr (c : qcircuit) (ext : bool) (op : qop) (i : instr) : Prop :=
  exists t n is e, dget String.eqb (o_name P op) to_qir = Some (t, n) /\ o_qubits P op <> None /\
    Forall2 (in_place (c_qregs P c)) (qubits_of P op) is /\
    i = mkI t n (map ANum (params_of P op) ++ map AQubit is) e /\ forallb pnum (params_of P op) = true /\
    (t = BASE \/ t = EXTERNAL /\ ext = true /\ exists u, e = Some (mkFn u (repeat KQ (o_nq P op) ++ repeat KD (o_np P op))) /\ named n u).
Definition meas_instr (c : qcircuit) (x : nat * nat) (i : instr) : Prop :=
  exists k l, in_place (c_qregs P c) (fst x) k /\ in_place (c_cregs P c) (snd x) l /\ i = mkI MEASUREMENT "mz" [AQubit k; AResult l] None.
Definition out_instr (c : qcircuit) (x : nat * nat) (i : instr) : Prop :=
  exists l, in_place (c_cregs P c) (snd x) l /\ i = mkI OUTPUT "out" [AResult l] None.
(** One measurement makes two instructions with the same result. *)
Record built (c : qcircuit) (ext : bool) (gates meas : list qop) (m m' : qmodule) : Prop := {
  bu_nq : q_nq P D m' = q_nq P D m;
  bu_nb : q_nb P D m' = q_nb P D m;
  bu_body : exists gi, q_body P D m' = q_body P D m ++ gi /\ Forall2 (gate_instr c ext) gates gi;
  bu_meas : exists mi, q_meas P D m' = q_meas P D m ++ mi /\ Forall2 (meas_instr c) (List.concat (map (measured P) meas)) mi;
  bu_out : exists oi, q_out P D m' = q_out P D m ++ oi /\ Forall2 (out_instr c) (List.concat (map (measured P) meas)) oi;
  bu_mains : q_mains P D m' = q_mains P D m;
  bu_ret : q_ret P D m' = q_ret P D m;
  bu_comp : q_compiled P D m' = q_compiled P D m;
  bu_qir : q_qir P D m' = q_qir P D m
}.
Lemma built_refl c ext m : built c ext [] [] m m.
Proof. constructor; auto; exists []; (split; [now rewrite app_nil_r|constructor]). Qed.
Lemma built_trans c ext g g' a a' m m1 m2 : built c ext g a m m1 -> built c ext g' a' m1 m2 -> built c ext (g ++ g') (a ++ a') m m2.
Proof.
  intros [A1 A2 (x1 & B1 & C1) (x2 & B2 & C2) (x3 & B3 & C3) A6 A7 A8 A9] [A1' A2' (y1 & B1' & C1') (y2 & B2' & C2') (y3 & B3' & C3') A6' A7' A8' A9'].
  constructor; try congruence.
  - exists (x1 ++ y1). split; [rewrite B1', B1; now rewrite app_assoc|now apply Forall2_app].
  - exists (x2 ++ y2). rewrite map_app, concat_app. split; [rewrite B2', B2; now rewrite app_assoc|now apply Forall2_app].
  - exists (x3 ++ y3). rewrite map_app, concat_app. split; [rewrite B3', B3; now rewrite app_assoc|now apply Forall2_app].
Qed.
Lemma measure_all_spec c : forall l m m', measure_all P pnum D c "mz" l m = Ok m' ->
  q_nq P D m' = q_nq P D m /\ q_nb P D m' = q_nb P D m /\ q_body P D m' = q_body P D m /\ q_ext P D m' = q_ext P D m /\ q_decl P D m' = q_decl P D m /\
  q_mains P D m' = q_mains P D m /\ q_ret P D m' = q_ret P D m /\ q_compiled P D m' = q_compiled P D m /\ q_qir P D m' = q_qir P D m /\
  (exists mi, q_meas P D m' = q_meas P D m ++ mi /\ Forall2 (meas_instr c) l mi) /\ (exists oi, q_out P D m' = q_out P D m ++ oi /\ Forall2 (out_instr c) l oi).
Proof.
  induction l as [|[q b] l IH]; intros m m'; cbn.
  - intros [= <-]. repeat split; exists []; (split; [now rewrite app_nil_r|constructor]).
  - unfold bind. destruct (find q (c_qregs P c)) as [x|] eqn:Ex; [|discriminate]. destruct (find b (c_cregs P c)) as [y|] eqn:Ey; [|discriminate].
    intros H. apply IH in H. destruct H as (-> & -> & -> & -> & -> & -> & -> & -> & -> & (mi & -> & Hm) & (oi & -> & Ho)). cbn. repeat split.
    + eexists. split; [rewrite <- app_assoc; reflexivity|]. constructor; [|exact Hm]. exists (snd x), (snd y). repeat split; eapply find_at_some; eauto.
    + eexists. split; [rewrite <- app_assoc; reflexivity|]. constructor; [|exact Ho]. exists (snd y). split; [eapply find_at_some; eauto|reflexivity].
Qed.
Lemma unique_named n used : named n (unique (qis_name n) used).
Proof. unfold unique. destruct (existsb _ used); [right; eauto|now left]. Qed.
Lemma mz_only n x : dget String.eqb n to_qir = Some (MEASUREMENT, x) -> n = "Measurement" /\ x = "mz".
Proof.
  unfold to_qir. cbn. repeat match goal with |- context [String.eqb n ?s] => destruct (String.eqb_spec n s) as [->|?]; [intros E; try discriminate E; injection E as <-; auto|] end. discriminate.
Qed.
Lemma mz_not n t x : dget String.eqb n to_qir = Some (t, x) -> t <> MEASUREMENT -> n <> "Measurement".
Proof. intros E H ->. cbn in E. injection E as <- _. now apply H. Qed.
Lemma arg_split ps is : forallb (arg_ok P pnum) (map ANum ps ++ map AQubit is) = forallb pnum ps.
Proof.
  rewrite forallb_app. assert (H : forallb (arg_ok P pnum) (map AQubit is) = true) by (induction is; cbn; auto).
  rewrite H, andb_true_r. induction ps; cbn; [auto|]. now rewrite IHps.
Qed.
Lemma dget_dset_same (A : Type) n (v : A) d : dget String.eqb n (dset String.eqb n v d) = Some v.
Proof. induction d as [|[k u] d IH]; cbn; [now rewrite String.eqb_refl|]. destruct (String.eqb n k) eqn:E; cbn; rewrite E; auto. Qed.

(** What is declared after an operation. *)
Definition declared (ext : bool) (op : qop) (m m' : qmodule) : Prop :=
  q_decl P D m' = q_decl P D m \/
  exists n, dget String.eqb (o_name P op) to_qir = Some (EXTERNAL, n) /\ q_decl P D m' = q_decl P D m ++ [unique (qis_name n) (q_decl P D m)].
(** The name under which an external gate is called: the plain name if it is not taken. *)
Definition fresh_named (m : qmodule) (op : qop) (m' : qmodule) : Prop :=
  forall n, dget String.eqb (o_name P op) to_qir = Some (EXTERNAL, n) -> ~ In (qis_name n) (q_decl P D m) ->
    exists l x f, q_body P D m' = l ++ [x] /\ i_ext P x = Some f /\ f_name f = qis_name n.

Lemma add_op_spec c ext op met m met' m' : add_op P pnum D c ext op (met, m) = Ok (met', m') ->
  declared ext op m m' /\
  (is_measurement P op /\ met' = true /\ built c ext [] [op] m m' \/
   ~ is_measurement P op /\ met = false /\ met' = false /\ built c ext [op] [] m m' /\ fresh_named m op m').
Proof.
  unfold add_op. destruct (dget String.eqb (o_name P op) to_qir) as [[t n]|] eqn:Et; [|discriminate].
  destruct t; cbn [itype_eqb andb]; rewrite ?andb_false_r; try discriminate.
  - (* BASE *) cbn. destruct met; [discriminate|]. unfold bind. destruct (o_qubits P op) as [qs|] eqn:Eq; [|discriminate].
    destruct (qubit_args P c qs) as [qa|] eqn:Ea; [|discriminate]. apply qubit_args_spec in Ea. destruct Ea as (is & -> & Hi).
    unfold new_instr. change (match o_params P op with Some ps => ps | None => [] end) with (params_of P op). rewrite arg_split.
    destruct (forallb pnum (params_of P op)) eqn:En; [|discriminate]. intros [= <- <-]. split; [now left|]. right.
    split; [eapply mz_not; eauto; discriminate|]. repeat split; auto; cbn.
    + eexists. split; [reflexivity|]. constructor; [|constructor]. exists BASE, n, is, None. repeat split; auto; [congruence|]. unfold qubits_of. now rewrite Eq.
    + exists []. split; [now rewrite app_nil_r|constructor].
    + exists []. split; [now rewrite app_nil_r|constructor].
    + intros n' E'. congruence.
  - (* EXTERNAL *) destruct ext; cbn [negb andb]; [|discriminate]. destruct met; [discriminate|]. unfold bind. destruct (o_qubits P op) as [qs|] eqn:Eq; [|discriminate].
    destruct (qubit_args P c qs) as [qa|] eqn:Ea; [|discriminate]. apply qubit_args_spec in Ea. destruct Ea as (is & -> & Hi).
    unfold external_instr, new_instr. change (match o_params P op with Some ps => ps | None => [] end) with (params_of P op). rewrite arg_split.
    destruct (forallb pnum (params_of P op)) eqn:En; [|discriminate]. unfold add_external. cbn [q_ext]. rewrite dget_dset_same. intros [= <- <-]. split; [right; exists n; auto|]. right.
    split; [eapply mz_not; eauto; discriminate|]. repeat split; auto; cbn.
    + eexists. split; [reflexivity|]. constructor; [|constructor]. exists EXTERNAL, n, is. eexists. repeat split; auto; [congruence|unfold qubits_of; now rewrite Eq|].
      right. repeat split. eexists. split; [reflexivity|apply unique_named].
    + exists []. split; [now rewrite app_nil_r|constructor].
    + exists []. split; [now rewrite app_nil_r|constructor].
    + intros n' E' Hn. assert (n' = n) by congruence. subst n'. eexists _, _, _. split; [reflexivity|]. cbn. split; [reflexivity|]. cbn. unfold unique.
      destruct (existsb (String.eqb (qis_name n)) (q_decl P D m)) eqn:Ee; [|reflexivity]. exfalso. apply Hn. apply existsb_exists in Ee. destruct Ee as (z & Hz & Ez). apply String.eqb_eq in Ez. now subst z.
  - (* MEASUREMENT *) destruct (mz_only _ _ Et) as (En & ->). destruct (o_qubits P op) as [qs|] eqn:Eq; [|discriminate].
    destruct (o_bits P op) as [bs|] eqn:Eb; [|discriminate]. unfold bind.
    destruct (measure_all P pnum D c "mz" (combine qs bs) m) as [m1|] eqn:Em; [|discriminate]. intros [= <- <-].
    apply measure_all_spec in Em. destruct Em as (H1 & H2 & H3 & H4 & H5 & H6 & H7 & H8 & H9 & H10 & H11). split; [now left|]. left. split; [exact En|]. split; [reflexivity|].
    assert (El : List.concat (map (measured P) [op]) = combine qs bs) by (cbn; rewrite app_nil_r; unfold measured, qubits_of, bits_of; now rewrite Eq, Eb).
    constructor; auto; rewrite ?El; auto. exists []. split; [now rewrite app_nil_r|constructor].
Qed.
Lemma add_ops_met c ext : forall ops m met' m', add_ops P pnum D c ext ops (true, m) = Ok (met', m') ->
  Forall (is_measurement P) ops /\ met' = true /\ built c ext [] ops m m' /\ q_decl P D m' = q_decl P D m.
Proof.
  induction ops as [|op ops IH]; intros m met' m'; cbn.
  - intros [= <- <-]. split; [constructor|]. split; [reflexivity|]. split; [apply built_refl|reflexivity].
  - unfold bind. destruct (add_op P pnum D c ext op (true, m)) as [[met1 m1]|] eqn:E; [|discriminate]. intros H.
    apply add_op_spec in E. destruct E as (Hd & [(A & -> & B)|(_ & F & _)]); [|discriminate F]. apply IH in H. destruct H as (H1 & H2 & H3 & H4).
    split; [now constructor|]. split; [exact H2|]. split; [exact (built_trans c ext [] [] [op] ops m m1 m' B H3)|]. rewrite H4.
    destruct Hd as [Hd|(n & En & _)]; [exact Hd|]. unfold is_measurement in A. rewrite A in En. discriminate En.
Qed.
Lemma add_ops_spec c ext : forall ops m met' m', add_ops P pnum D c ext ops (false, m) = Ok (met', m') ->
  exists gates meas, ops = gates ++ meas /\ Forall (fun op => ~ is_measurement P op) gates /\ Forall (is_measurement P) meas /\ built c ext gates meas m m'.
Proof.
  induction ops as [|op ops IH]; intros m met' m'; cbn.
  - intros [= <- <-]. exists [], []. split; [reflexivity|]. split; [constructor|]. split; [constructor|]. apply built_refl.
  - unfold bind. destruct (add_op P pnum D c ext op (false, m)) as [[met1 m1]|] eqn:E; [|discriminate]. intros H.
    apply add_op_spec in E. destruct E as (_ & [(A & -> & B)|(A & _ & -> & B & _)]).
    + apply add_ops_met in H. destruct H as (H1 & _ & H3 & _). exists [], (op :: ops). split; [reflexivity|]. split; [constructor|]. split; [now constructor|].
      exact (built_trans c ext [] [] [op] ops m m1 m' B H3).
    + apply IH in H. destruct H as (gates & meas & -> & Hg & Hm & B'). exists (op :: gates), meas. split; [reflexivity|]. split; [now constructor|]. split; [exact Hm|].
      exact (built_trans c ext [op] gates [] meas m m1 m' B B').
Qed.
End QirProofs.

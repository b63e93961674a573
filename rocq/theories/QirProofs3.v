(** Proofs about places, success, loading and recompiling. *)
From Coq Require Import List String Bool Arith Ascii Lia.
From Verif Require Import Py QirModel QirSpec QirProofs QirProofs2.
Import ListNotations.
Local Open Scope string_scope.
Local Open Scope list_scope.

Lemma Forall2_in_r {A B} (R : A -> B -> Prop) l m : Forall2 R l m -> forall b, In b m -> exists a, In a l /\ R a b.
Proof. intros H. induction H; intros b0 Hb; [destruct Hb|]. destruct Hb as [<-|Hb]; [exists x; cbn; auto|]. destruct (IHForall2 b0 Hb) as (a & Ha & Hr). exists a. cbn. auto. Qed.
Lemma Forall2_in_l {A B} (R : A -> B -> Prop) l m : Forall2 R l m -> forall a, In a l -> exists b, In b m /\ R a b.
Proof. intros H. induction H; intros a0 Ha; [destruct Ha|]. destruct Ha as [<-|Ha]; [exists y; cbn; auto|]. destruct (IHForall2 a0 Ha) as (b & Hb & Hr). exists b. cbn. auto. Qed.

Lemma Forall2_length {A B} {R : A -> B -> Prop} {l m} : Forall2 R l m -> List.length l = List.length m.
Proof. intros H. induction H; cbn; congruence. Qed.

(** ** Places *)
Lemma in_place_concat : forall rs q k, one_register rs -> in_place rs q k -> nth_error (List.concat rs) k = Some q.
Proof.
  induction rs as [|r rs IH]; intros q k Ho (r' & Hr & E); [destruct Hr|]. cbn. destruct Hr as [->|Hr].
  - rewrite nth_error_app1; [exact E|]. apply nth_error_Some. congruence.
  - assert (Hn : r' <> []) by (intros ->; destruct k; discriminate E).
    destruct (In_nth_error _ _ Hr) as (j & Ej).
    assert (r = []). { destruct r as [|x r]; [reflexivity|]. exfalso. assert (0 = S j); [|discriminate]. apply (Ho 0 (S j) (x :: r) r'); auto. discriminate. }
    subst r. cbn. apply IH; [|exists r'; auto]. intros i i' a b Ea Eb Ha Hb. assert (S i = S i') by (apply (Ho (S i) (S i') a b); auto). lia.
Qed.
Lemma places_differ rs q q' k : one_register rs -> in_place rs q k -> in_place rs q' k -> q = q'.
Proof. intros Ho H H'. apply in_place_concat in H, H'; auto. congruence. Qed.
Lemma Forall2_places rs : one_register rs -> forall qs is, Forall2 (in_place rs) qs is -> Forall2 (fun q i => nth_error (List.concat rs) i = Some q) qs is.
Proof. intros Ho qs is H. induction H; constructor; auto using in_place_concat. Qed.

(** ** Tables *)
Lemma read_back g n : dget String.eqb g to_qir = Some (EXTERNAL, n) -> dget String.eqb (qis_name n) from_qis = Some g.
Proof. unfold to_qir. cbn -[from_qis qis_name]. by_name g; intros E; try discriminate E; injection E as <-; vm_compute; reflexivity. Qed.
Lemma read_back_base g t n f ks : dget String.eqb g to_qir = Some (t, n) -> (t = BASE \/ t = MEASUREMENT) -> qis_function n = Some (f, ks) -> dget String.eqb f from_qis = Some g.
Proof.
  unfold to_qir. cbn -[from_qis qis_function]. by_name g; intros E; try discriminate E; injection E as <- <-; intros [H|H]; try discriminate H; vm_compute; intros [= <- <-]; reflexivity.
Qed.

Section Counts.
Definition kds (ks : list kind) : nat := List.length (filter (fun k => match k with KD => true | _ => false end) ks).
Definition kqs (ks : list kind) : nat := List.length (filter (fun k => match k with KQ => true | _ => false end) ks).
Lemma kds_split a b : kds (repeat KD a ++ repeat KQ b) = a.
Proof. unfold kds. rewrite filter_app, app_length. induction a; cbn; [|now rewrite IHa]. induction b; auto. Qed.
Lemma kqs_split a b : kqs (repeat KD a ++ repeat KQ b) = b.
Proof. unfold kqs. rewrite filter_app, app_length. induction a; cbn; [|auto]. induction b; cbn; auto. Qed.
End Counts.

Section QirProofs3.
Variable P : Type.
Variable pnum : P -> bool.
Variable D : Type.
Variable dbl : P -> D.
Notation qop := (qop P).
Notation qcircuit := (qcircuit P).
Notation instr := (instr P).
Notation qmodule := (qmodule P D).
Notation execute := (execute P D dbl).

(** ** Names of external functions *)
Definition is_extra (n : string) : bool := existsb (String.eqb n) extra.
Arguments is_extra : simpl never.
Lemma extra_external g n : dget String.eqb g to_qir = Some (EXTERNAL, n) -> is_extra g = true.
Proof. intros H. destruct (external_function _ _ H) as (_ & Hi). apply existsb_exists. exists g. split; [exact Hi|apply String.eqb_refl]. Qed.
Definition plain_instr (i : instr) : Prop := i_type P i = EXTERNAL -> exists f, i_ext P i = Some f /\ f_name f = qis_name (i_name P i).
Lemma plain_names c ext : forall ops met m met' m', add_ops P pnum D c ext ops (met, m) = Ok (met', m') ->
  NoDup (filter is_extra (map (o_name P) ops)) ->
  (forall op n, In op ops -> dget String.eqb (o_name P op) to_qir = Some (EXTERNAL, n) -> ~ In (qis_name n) (q_decl P D m)) ->
  exists gi, q_body P D m' = q_body P D m ++ gi /\ Forall plain_instr gi.
Proof.
  induction ops as [|op ops IH]; intros met m met' m'; cbn.
  - intros [= <- <-] _ _. exists []. split; [now rewrite app_nil_r|constructor].
  - unfold bind. destruct (add_op P pnum D c ext op (met, m)) as [[met1 m1]|] eqn:E; [|discriminate]. intros Ha Hn Hd.
    apply add_op_spec in E. destruct E as (De & E).
    assert (Hn' : NoDup (filter is_extra (map (o_name P) ops))) by (destruct (is_extra (o_name P op)); [now inversion Hn|exact Hn]).
    assert (Hd' : forall op' n, In op' ops -> dget String.eqb (o_name P op') to_qir = Some (EXTERNAL, n) -> ~ In (qis_name n) (q_decl P D m1)).
    { intros op' n Hi En. destruct De as [->|(n0 & En0 & ->)]; [eauto|]. intros Hin. apply in_app_or in Hin. destruct Hin as [Hin|[Hin|[]]]; [exact (Hd op' n (or_intror Hi) En Hin)|].
      unfold unique in Hin. destruct (existsb (String.eqb (qis_name n0)) (q_decl P D m)) eqn:Ee.
      { apply existsb_exists in Ee. destruct Ee as (z & Hz & Ez). apply String.eqb_eq in Ez. subst z. exact (Hd op n0 (or_introl eq_refl) En0 Hz). }
      apply read_back in En as R. apply read_back in En0 as R0. rewrite <- Hin, R0 in R. injection R as R.
      rewrite (extra_external _ _ En0) in Hn. inversion Hn as [|? ? Hx _]; subst. apply Hx. apply filter_In. split; [|exact (extra_external _ _ En0)]. rewrite R. now apply in_map. }
    destruct (IH _ _ _ _ Ha Hn' Hd') as (gi & Eg & Hg). destruct E as [(_ & _ & B)|(_ & _ & _ & B & Hf)].
    + destruct (bu_body _ _ _ _ _ _ _ _ _ B) as (g0 & E0 & H0). inversion H0; subst. rewrite app_nil_r in E0. exists gi. now rewrite Eg, E0.
    + destruct (bu_body _ _ _ _ _ _ _ _ _ B) as (g0 & E0 & H0). inversion H0 as [|? i ? ? Hi Hr]; subst. inversion Hr; subst. exists (i :: gi). split; [rewrite Eg, E0, <- app_assoc; reflexivity|].
      constructor; [|exact Hg]. intros Ht. destruct Hi as (t & n & is & e & Et & _ & _ & -> & _ & _). cbn in Ht. subst t.
      destruct (Hf n Et (Hd op n (or_introl eq_refl) Et)) as (l & x & f & Ex & Hx1 & Hx2). rewrite E0 in Ex. apply app_inj_tail in Ex. destruct Ex as (_ & <-). cbn in *. eauto.
Qed.

(** ** Loading one gate *)
Variable counted : string -> bool.
Lemma deconstruct_args ps is : deconstruct D (map (CDouble D) ps ++ map (CQubit D) is) = (ps, is, []).
Proof. induction ps as [|p ps IH]; cbn; [|now rewrite IH]. induction is as [|i is IH]; cbn; [reflexivity|now rewrite IH]. Qed.
Lemma construct_base g n f ks np nq : dget String.eqb g to_qir = Some (BASE, n) -> qis_function n = Some (f, ks) -> ks = repeat KD np ++ repeat KQ nq ->
  construct counted g np nq = None /\ 1 <= nq /\ g <> "Measurement" /\ is_qis f = true.
Proof.
  intros E F K. assert (Hp := kds_split np nq). assert (Hq := kqs_split np nq). rewrite <- K in Hp, Hq. clear K. revert E F Hp Hq.
  unfold to_qir. cbn -[construct qis_function is_qis kds kqs]. by_name g; intros E; try discriminate E; injection E as <-; cbn -[is_qis qis_name]; intros [= <- <-]; cbn; intros <- <-; cbn;
    rewrite ?andb_false_r; (split; [reflexivity|split; [lia|split; [discriminate|reflexivity]]]).
Qed.
Lemma construct_external g n np nq : dget String.eqb g to_qir = Some (EXTERNAL, n) -> In (g, (nq, np)) arity ->
  repeat KQ nq ++ repeat KD np = repeat KD np ++ repeat KQ nq ->
  construct counted g np nq = None /\ 1 <= nq /\ g <> "Measurement" /\ is_qis (qis_name n) = true /\ np = 0.
Proof.
  unfold to_qir. cbn -[construct arity is_qis qis_name]. by_name g; intros E; try discriminate E; injection E as <-; intros Hi; cbn in Hi;
    repeat match goal with H : _ \/ _ |- _ => destruct H as [H|H] end; try discriminate Hi; try contradiction; injection Hi as <- <-; cbn -[construct]; intros Hk; try discriminate Hk; cbn;
    rewrite ?andb_false_r; (split; [reflexivity|split; [lia|split; [discriminate|split; reflexivity]]]).
Qed.
Lemma load_gate c ext op i k L mq mb : gate_instr P pnum c ext op i -> plain_instr i -> execute i = Ok k -> proper P op -> ~ is_measurement P op ->
  exists is, Forall2 (in_place (c_qregs P c)) (qubits_of P op) is /\ 1 <= List.length is /\
    load_call D counted k (L, mq, mb) =
    Ok (mkL D (Nat.max (l_nq D L) (S (maxi is))) (l_nb D L) (l_ops D L ++ [LGate D (o_name P op) (map dbl (params_of P op)) is]), mq, mb).
Proof.
  intros (t & n & is & e & Et & Hq & Hi & -> & _ & H) Hp He Hpr Hm. exists is. split; [exact Hi|]. unfold QirModel.execute in He. cbn [i_type i_name i_args i_ext] in *.
  destruct H as [-> | (-> & _ & u & -> & Hu)].
  - destruct (qis_function n) as [[f ks]|] eqn:Ef; [|discriminate]. unfold bind in He. destruct (convert P D dbl ks _) as [r|] eqn:Ec; [|discriminate]. injection He as <-.
    apply convert_args in Ec. destruct Ec as (-> & Ek). destruct (construct_base _ _ _ _ _ _ Et Ef Ek) as (H1 & H2 & H3 & H4). split; [exact H2|].
    unfold load_call. rewrite H4. cbn [negb]. rewrite (read_back_base _ _ _ _ _ Et (or_introl eq_refl) Ef), deconstruct_args. apply String.eqb_neq in H3. rewrite H3, map_length, H1. reflexivity.
  - cbn [f_kinds f_name] in He. unfold bind in He. destruct (convert P D dbl _ _) as [r|] eqn:Ec; [|discriminate]. injection He as <-.
    apply convert_args in Ec. destruct Ec as (-> & Ek). destruct Hpr as [Hpr|(nq & np & Ha & <- & <- & Hl & Hn)]; [contradiction|].
    assert (Hli : List.length is = o_nq P op). { rewrite <- (Forall2_length Hi). unfold qubits_of. destruct (o_qubits P op) as [qs|]; [auto|now destruct Hq]. }
    rewrite Hn, Hli in Ek. destruct (construct_external _ _ _ _ Et Ha Ek) as (H1 & H2 & H3 & H4 & H5). rewrite Hli. split; [exact H2|].
    destruct (Hp eq_refl) as (f & Ef & Hf). cbn in Ef, Hf. injection Ef as <-. cbn in Hf. subst u.
    unfold load_call. rewrite H4. cbn [negb]. rewrite (read_back _ _ Et), deconstruct_args. apply String.eqb_neq in H3. rewrite H3, map_length, Hn, Hli, H1. reflexivity.
Qed.
Lemma maxi_lt is k : 1 <= List.length is -> (k < S (maxi is) <-> exists j, In j is /\ k <= j).
Proof.
  intros Hl. split.
  - intros H. revert Hl H. induction is as [|x is IH]; cbn; intros Hl H; [lia|]. destruct (Nat.le_gt_cases k x) as [Hx|Hx]; [eauto|].
    destruct is as [|y is]; [cbn in H; lia|]. destruct IH as (j & Hj & Hk); [cbn; lia|cbn in *; lia|]. eauto.
  - intros (j & Hj & Hk). clear Hl. induction is as [|x is IH]; [destruct Hj|]. change (maxi (x :: is)) with (Nat.max x (maxi is)). destruct Hj as [->|Hj]; [lia|]. specialize (IH Hj). lia.
Qed.
Lemma load_gates c ext : forall gates gi ks L mq mb, Forall2 (gate_instr P pnum c ext) gates gi -> Forall plain_instr gi -> Forall2 (fun i k => execute i = Ok k) gi ks ->
  Forall (proper P) gates -> Forall (fun op => ~ is_measurement P op) gates ->
  exists L' gs, load_calls D counted ks (L, mq, mb) = Ok (L', mq, mb) /\ l_nb D L' = l_nb D L /\ l_ops D L' = l_ops D L ++ gs /\
    Forall2 (fun op g => exists is, g = LGate D (o_name P op) (map dbl (params_of P op)) is /\ Forall2 (in_place (c_qregs P c)) (qubits_of P op) is) gates gs /\
    (forall k, k < l_nq D L' <-> k < l_nq D L \/ exists g j, In g gs /\ In j (gate_places D g) /\ k <= j).
Proof.
  intros gates gi ks L mq mb Hg. revert ks L. induction Hg as [|op i gates gi Hi Hg IH]; intros ks L Hp He Hpr Hm.
  - inversion He; subst. exists L, []. cbn. rewrite app_nil_r. repeat split; auto. intros [H|(g & j & [] & _)]; exact H.
  - inversion He as [|? k ? ks' E1 E2]; subst. inversion Hp; subst. inversion Hpr; subst. inversion Hm; subst.
    destruct (load_gate c ext op i k L mq mb) as (is & H1' & H2' & H3'); auto.
    edestruct (IH ks' (mkL D (Nat.max (l_nq D L) (S (maxi is))) (l_nb D L) (l_ops D L ++ [LGate D (o_name P op) (map dbl (params_of P op)) is]))) as (L' & gs & A & B & C & F & G); auto.
    exists L', (LGate D (o_name P op) (map dbl (params_of P op)) is :: gs). cbn [load_calls]. unfold bind. rewrite H3'. repeat split; auto.
    + rewrite C. cbn. now rewrite <- app_assoc.
    + constructor; eauto.
    + intros H. apply G in H. cbn [l_nq] in H. destruct H as [H|(g & j & Hg1 & Hj & Hk)]; [|right; exists g, j; cbn; auto].
      destruct (Nat.lt_ge_cases k0 (l_nq D L)) as [Hl|Hl]; [now left|]. assert (Hs : k0 < S (maxi is)) by lia. apply maxi_lt in Hs; [|exact H2']. destruct Hs as (j & Hj & Hk).
      right. eexists _, j. split; [left; reflexivity|]. auto.
    + intros H. apply G. cbn [l_nq]. destruct H as [H|(g & j & [<-|Hg1] & Hj & Hk)]; [left; lia| |right; exists g, j; auto].
      left. cbn in Hj. assert (k0 < S (maxi is)) by (apply maxi_lt; eauto). lia.
Qed.
Lemma load_measures c : forall l b L mq mb, Forall2 (measure_call P D c) l b ->
  exists qs bs, load_calls D counted b (L, mq, mb) = Ok (L, mq ++ qs, mb ++ bs) /\
    Forall2 (fun x i => in_place (c_qregs P c) (fst x) i) l qs /\ Forall2 (fun x j => in_place (c_cregs P c) (snd x) j) l bs.
Proof.
  intros l b L mq mb H. revert mq mb. induction H as [|x k l b (i & j & Hi & Hj & ->) _ IH]; intros mq mb.
  - exists [], []. rewrite !app_nil_r. repeat split; constructor.
  - destruct (IH (mq ++ [i]) (mb ++ [j])) as (qs & bs & E & H1 & H2). exists (i :: qs), (j :: bs). cbn [load_calls]. unfold bind.
    change (load_call D counted (Call D "__quantum__qis__mz__body" [CQubit D i; CResult D j]) (L, mq, mb)) with (Ok (L, mq ++ [i], mb ++ [j])).
    cbv beta iota. rewrite E, <- !app_assoc. repeat split; constructor; auto.
Qed.
Lemma load_outputs c : forall l b s, Forall2 (output_call P D c) l b -> load_calls D counted b s = Ok s.
Proof. intros l b s H. induction H as [|x k l b (j & _ & ->) _ IH]; [reflexivity|]. destruct s as [[L mq] mb]. exact IH. Qed.
Lemma load_app : forall a b s, load_calls D counted (a ++ b) s = (let? s' := load_calls D counted a s in load_calls D counted b s').
Proof. induction a as [|x a IH]; intros b s; cbn; [reflexivity|]. unfold bind in *. destruct (load_call D counted x s); [apply IH|reflexivity]. Qed.
Lemma Forall2_map_l {A B} (R : A -> B -> Prop) (Q : A -> B -> Prop) l m : (forall a b, R a b -> Q a b) -> Forall2 R l m -> Forall2 Q l m.
Proof. intros H F. induction F; constructor; auto. Qed.

Lemma round_trip c ext t :
  one_register (c_qregs P c) -> one_register (c_cregs P c) -> Forall (proper P) (c_ops P c) -> NoDup (filter is_extra (map (o_name P) (c_ops P c))) ->
  to_qir_calls P pnum D dbl c ext = Ok t ->
  (forall op q b, In op (c_ops P c) -> is_measurement P op -> In (q, b) (measured P op) ->
     exists g q' i j, In g (c_ops P c) /\ ~ is_measurement P g /\ In q' (qubits_of P g) /\
       nth_error (c_qubits P c) i = Some q /\ nth_error (c_qubits P c) j = Some q' /\ i <= j) ->
  NoDup (c_qubits P c) ->
  exists gates meas L gs qs bs, c_ops P c = gates ++ meas /\ Forall (fun op => ~ is_measurement P op) gates /\ Forall (is_measurement P) meas /\
    load D counted t = Ok L /\
    Forall2 (same_gate P D dbl c) gates gs /\
    Forall2 (fun x i => nth_error (c_qubits P c) i = Some (fst x)) (List.concat (map (measured P) meas)) qs /\
    Forall2 (fun x j => nth_error (c_bits P c) j = Some (snd x)) (List.concat (map (measured P) meas)) bs /\
    l_ops D L = gs ++ (match qs with [] => [] | _ => [LMeasure D qs bs] end) /\
    (forall k, k < l_nq D L <-> exists g j, In g gs /\ In j (gate_places D g) /\ k <= j).
Proof.
  intros Oq Oc Hp Hn Ht Hm Nq. pose proof (calls_spec P pnum D dbl c ext t Ht) as (m & gates & meas & cs & Em & Eo & Hg & Hme & B & Hb & ->).
  apply body_calls_ok in Hb. destruct Hb as (a & b & o & -> & Ha & Hb & Ho).
  assert (Pn : exists gi, q_body P D m = gi /\ Forall plain_instr gi).
  { unfold qir_module, bind in Em. destruct (add_ops P pnum D c ext (c_ops P c) _) as [[met m']|] eqn:E; [|discriminate]. injection Em as <-.
    destruct (plain_names _ _ _ _ _ _ _ E Hn) as (gi & E' & H'); [intros ? ? ? ? []|]. exists gi. auto. }
  destruct Pn as (gi & Eg & Pn). destruct (bu_body _ _ _ _ _ _ _ _ _ B) as (gi' & Eg' & Hgi). cbn in Eg'. rewrite Eg' in Eg. subst gi'. rewrite Eg' in Ha.
  assert (Hp' : Forall (proper P) gates) by (rewrite Eo in Hp; apply Forall_app in Hp; tauto).
  destruct (load_gates c ext gates gi a (mkL D 0 0 []) [] [] Hgi Pn Ha Hp' Hg) as (L & gs & A1 & A2 & A3 & A4 & A5).
  destruct (bu_meas _ _ _ _ _ _ _ _ _ B) as (mi & Em' & Hmi). cbn in Em'. rewrite Em' in Hb.
  assert (Mc := Forall2_compose _ _ (measure_call P D c) (execute_meas P D dbl c) _ _ _ Hmi Hb).
  destruct (load_measures c _ _ L [] [] Mc) as (qs & bs & B1 & B2 & B3). cbn in B1.
  destruct (bu_out _ _ _ _ _ _ _ _ _ B) as (oi & Eo' & Hoi). cbn in Eo'. rewrite Eo' in Ho.
  assert (Oc' := Forall2_compose _ _ (output_call P D c) (record_out P D c) _ _ _ Hoi Ho).
  assert (C0 : load_mains D counted [mkMain D (init_call D :: a ++ b ++ o) true] (mkL D 0 0 [], [], []) = Ok (L, qs, bs)).
  { cbn [load_mains b_calls load_calls]. unfold bind. change (load_call D counted (init_call D) (mkL D 0 0 [], [], [])) with (@Ok (lstate D) (mkL D 0 0 [], [], [])). cbv beta iota.
    rewrite load_app. unfold bind. rewrite A1. rewrite load_app. unfold bind. rewrite B1. rewrite (load_outputs c _ _ _ Oc'). reflexivity. }
  assert (Bq : Forall2 (fun x i => nth_error (c_qubits P c) i = Some (fst x)) (List.concat (map (measured P) meas)) qs)
    by (eapply Forall2_map_l; [|exact B2]; intros x i H; apply in_place_concat; auto).
  assert (Bb : Forall2 (fun x j => nth_error (c_bits P c) j = Some (snd x)) (List.concat (map (measured P) meas)) bs)
    by (eapply Forall2_map_l; [|exact B3]; intros x i H; apply in_place_concat; auto).
  assert (Sg : Forall2 (same_gate P D dbl c) gates gs).
  { eapply Forall2_map_l; [|exact A4]. intros op g (is & -> & H). exists is. split; [reflexivity|]. now apply Forall2_places. }
  assert (A5' : forall k, k < l_nq D L <-> exists g j, In g gs /\ In j (gate_places D g) /\ k <= j).
  { intros k. rewrite A5. cbn. split; [intros [H|H]; [lia|exact H]|auto]. }
  cbn in A3. unfold load. unfold bind. rewrite C0. destruct qs as [|q0 qs].
  - exists gates, meas, L, gs, [], bs. rewrite app_nil_r. repeat split; auto; apply A5'.
  - assert (Hlt : forallb (fun q => Nat.ltb q (l_nq D L)) (q0 :: qs) = true).
    { apply forallb_forall. intros k Hk. apply Nat.ltb_lt. apply A5'.
      destruct (Forall2_in_r _ _ _ Bq k Hk) as ((q & b0) & Hx & Ek). cbn in Ek.
      apply in_concat in Hx. destruct Hx as (l & Hl & Hx). apply in_map_iff in Hl. destruct Hl as (op & <- & Hop).
      destruct (Hm op q b0) as (g & q' & i & j & Hgi' & Hgm & Hq' & Ei & Ej & Hij); auto; [rewrite Eo; apply in_or_app; auto|exact (proj1 (Forall_forall _ _) Hme op Hop)|].
      assert (Hgg : In g gates). { rewrite Eo in Hgi'. apply in_app_or in Hgi'. destruct Hgi' as [H|H]; [exact H|]. exfalso. apply Hgm. exact (proj1 (Forall_forall _ _) Hme g H). }
      destruct (Forall2_in_l _ _ _ Sg g Hgg) as (x & Hxg & (is & -> & His)). destruct (Forall2_in_l _ _ _ His q' Hq') as (j' & Hj' & Ej').
      assert (i = k). { rewrite NoDup_nth_error in Nq. apply Nq; [apply nth_error_Some; congruence|congruence]. }
      assert (j' = j). { rewrite NoDup_nth_error in Nq. apply Nq; [apply nth_error_Some; congruence|congruence]. }
      subst. eexists _, j. split; [exact Hxg|]. cbn. auto. }
    assert (Hlen : List.length (q0 :: qs) = List.length bs) by (rewrite <- (Forall2_length Bq), (Forall2_length Bb); reflexivity).
    unfold add_measurements. rewrite Hlt, Hlen, Nat.ltb_irrefl, firstn_all.
    eexists gates, meas, _, gs, (q0 :: qs), bs. repeat split; auto; cbn [l_ops l_nq]; try apply A5'. now rewrite A3.
Qed.
End QirProofs3.

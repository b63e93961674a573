(** Proofs about success, signatures, recompiling and tables. *)
From Coq Require Import List String Bool Arith Ascii Lia.
From Verif Require Import Py QirModel QirSpec QirProofs QirProofs2 QirProofs3.
Import ListNotations.
Local Open Scope string_scope.
Local Open Scope list_scope.

Lemma posn_in q : forall l, In q l -> exists k, posn q l = Some k.
Proof.
  induction l as [|x l IH]; intros [].
  - subst. exists 0. cbn. now rewrite Nat.eqb_refl.
  - destruct (IH H) as (k & E). cbn. destruct (Nat.eqb q x); [eauto|]. rewrite E. cbn. eauto.
Qed.
Lemma find_at_in q : forall rs i, In q (List.concat rs) -> exists x, find_at i q rs = Ok x.
Proof.
  induction rs as [|r rs IH]; intros i H; [destruct H|]. cbn in *. destruct (posn q r) as [k|] eqn:E; [eauto|].
  apply in_app_or in H. destruct H as [H|H]; [|auto]. destruct (posn_in _ _ H). congruence.
Qed.

(** The two tables of names. *)
Section Tables.
Lemma dget_dset_other {A} k k' (v : A) : forall d, k <> k' -> dget String.eqb k (dset String.eqb k' v d) = dget String.eqb k d.
Proof.
  intros d Hk. induction d as [|[a b] d IH]; cbn.
  - destruct (String.eqb k k') eqn:E; [apply String.eqb_eq in E; contradiction|reflexivity].
  - destruct (String.eqb k' a) eqn:E; cbn; [|destruct (String.eqb k a); auto]. apply String.eqb_eq in E. subst a. destruct (String.eqb k k') eqn:E'; [apply String.eqb_eq in E'; contradiction|reflexivity].
Qed.
Lemma dict_fold {A} k (v : A) : forall l d, NoDup (map fst l) -> (In (k, v) l \/ ~ In k (map fst l) /\ dget String.eqb k d = Some v) ->
  dget String.eqb k (fold_left (fun d x => dset String.eqb (fst x) (snd x) d) l d) = Some v.
Proof.
  induction l as [|[a b] l IH]; intros d Hn H; cbn in *.
  - destruct H as [[]|[_ H]]; exact H.
  - inversion Hn; subst. apply IH; auto. destruct H as [[[= -> ->]|H]|[Hi Hg]].
    + right. split; [assumption|]. apply dget_dset_same.
    + now left.
    + right. split; [tauto|]. rewrite dget_dset_other; [assumption|]. intros ->. tauto.
Qed.
Lemma dict_of_get {A} k (v : A) l : NoDup (map fst l) -> In (k, v) l -> dget String.eqb k (dict_of l) = Some v.
Proof. intros Hn H. apply dict_fold; auto. Qed.
Lemma append_inj_l a : forall x y, (a ++ x)%string = (a ++ y)%string -> x = y.
Proof. induction a as [|c a IH]; cbn; intros x y H; [exact H|]. injection H as H. auto. Qed.
Lemma append_length a : forall b, String.length (a ++ b) = String.length a + String.length b.
Proof. induction a; cbn; intros; [reflexivity|now rewrite IHa]. Qed.
Lemma append_inj_r b : forall x y, (x ++ b)%string = (y ++ b)%string -> x = y.
Proof.
  induction x as [|c x IH]; intros [|d y] H; cbn in H; auto.
  - apply (f_equal String.length) in H. cbn in H. rewrite append_length in H. lia.
  - apply (f_equal String.length) in H. cbn in H. rewrite append_length in H. lia.
  - injection H as -> H. f_equal. auto.
Qed.
Lemma qis_name_inj a b : qis_name a = qis_name b -> a = b.
Proof. unfold qis_name. intros H. apply append_inj_l in H. now apply append_inj_r in H. Qed.
Lemma NoDup_map_inj {A B} (f : A -> B) : (forall x y, f x = f y -> x = y) -> forall l, NoDup l -> NoDup (map f l).
Proof. intros Hf l H. induction H; cbn; constructor; auto. intros Hi. apply in_map_iff in Hi. destruct Hi as (y & E & Hy). apply Hf in E. now subst. Qed.
Lemma NoDup_map_filter {A B} (f : A -> B) p : forall l, NoDup (map f l) -> NoDup (map f (filter p l)).
Proof.
  induction l as [|x l IH]; cbn; intros H; [constructor|]. inversion H; subst. destruct (p x); [|auto]. cbn. constructor; auto.
  intros Hi. apply in_map_iff in Hi. destruct Hi as (y & E & Hy). apply filter_In in Hy. apply H2. rewrite <- E. apply in_map. tauto.
Qed.
Lemma names_inverse (t : table) g ty n : NoDup (map (fun x => snd (snd x)) t) -> In (g, (ty, n)) t ->
  dget String.eqb n (from_qir_of t) = Some g /\
  (ty <> DECOMPOSE -> ty <> INVALID -> n <> "cnot" -> dget String.eqb (qis_name n) (from_qis_of t) = Some g).
Proof.
  intros Hn Hi. split.
  - apply dict_of_get; [rewrite map_map; exact Hn|]. apply in_map_iff. exists (g, (ty, n)). auto.
  - intros H1 H2 H3. unfold from_qis_of. rewrite dget_dset_other.
    + apply dict_of_get.
      * rewrite map_map. cbn. rewrite <- (map_map (fun x : string * (itype * string) => snd (snd x)) qis_name). apply NoDup_map_inj; [exact qis_name_inj|]. now apply NoDup_map_filter.
      * apply in_map_iff. exists (g, (ty, n)). split; [reflexivity|]. apply filter_In. split; [exact Hi|]. cbn. destruct ty; congruence.
    + intros E. apply H3. apply qis_name_inj. rewrite E. reflexivity.
Qed.
Lemma emitted_read_back g f : In (g, f) function_of -> dget String.eqb f from_qis = Some g.
Proof. intros H. cbn in H. repeat destruct H as [[= <- <-]|H]; try (vm_compute; reflexivity). destruct H. Qed.
End Tables.

Section QirProofs4.
Variable P : Type.
Variable pnum : P -> bool.
Variable D : Type.
Variable dbl : P -> D.
Notation qop := (qop P).
Notation qcircuit := (qcircuit P).
Notation instr := (instr P).
Notation qmodule := (qmodule P D).
Notation execute := (execute P D dbl).
Notation compile := (compile P D dbl).
Notation compile_now := (compile_now P D dbl).
Notation body_calls := (body_calls P D dbl).

(** ** Success *)
Lemma qubit_args_in (c : qcircuit) : forall qs, Forall (fun q => In q (c_qubits P c)) qs -> exists is, qubit_args P c qs = Ok (map (AQubit P) is).
Proof.
  intros qs H. induction H as [|q qs Hq _ (is & IH)]; cbn; [exists []; reflexivity|]. destruct (find_at_in q (c_qregs P c) 0 Hq) as (x & E).
  unfold find, bind. rewrite E, IH. exists (snd x :: is). reflexivity.
Qed.
Lemma measure_all_in (c : qcircuit) n : forall l m, Forall (fun x => In (fst x) (c_qubits P c) /\ In (snd x) (c_bits P c)) l -> exists m', measure_all P pnum D c n l m = Ok m'.
Proof.
  intros l m H. revert m. induction H as [|[q b] l [Hq Hb] _ IH]; intros m; cbn; [eauto|]. destruct (find_at_in q (c_qregs P c) 0 Hq) as (x & E). destruct (find_at_in b (c_cregs P c) 0 Hb) as (y & E').
  unfold find, bind. rewrite E, E'. apply IH.
Qed.
Lemma known_gate g : In g (map fst arity) -> exists t n, dget String.eqb g to_qir = Some (t, n) /\ (t = BASE /\ ~ In g extra \/ t = EXTERNAL /\ In g extra).
Proof.
  intros H. cbn in H. repeat destruct H as [<-|H]; try destruct H; eexists _, _; (split; [reflexivity|]); cbn; first [left; split; [reflexivity|intuition discriminate]|right; tauto].
Qed.
Lemma nums_ok : forall ps is, Forall (fun p => pnum p = true) ps -> forallb (arg_ok P pnum) (map (ANum P) ps ++ map (AQubit P) is) = true.
Proof. intros ps is H. rewrite forallb_app. apply andb_true_iff. split; [induction H; cbn; auto; now rewrite H|]. induction is; auto. Qed.
Lemma add_writable c ext op m : writable P pnum c ext op -> exists m', add_op P pnum D c ext op (false, m) = Ok (false, m').
Proof.
  intros (Hm & Hp & Hn & (qs & Eq & Hq) & Hx). destruct Hp as [Hp|(nq & np & Ha & _)]; [contradiction|].
  destruct (known_gate (o_name P op)) as (t & n & E & Ht); [change (o_name P op) with (fst (o_name P op, (nq, np))); now apply in_map|].
  destruct (qubit_args_in c qs Hq) as (is & Ei). unfold add_op. rewrite E, Eq. unfold bind. fold (params_of P op). destruct Ht as [(-> & _)|(-> & He)].
  - rewrite andb_false_r. cbn [itype_eqb andb]. rewrite Ei. unfold new_instr. rewrite nums_ok by exact Hn. eauto.
  - destruct (Hx He) as (-> & _). cbn [itype_eqb andb negb]. rewrite Ei. unfold external_instr, new_instr. rewrite nums_ok by exact Hn. cbn [add_external q_ext]. rewrite dget_dset_same. eauto.
Qed.
Lemma add_readable c ext op met m : readable P c op -> exists m', add_op P pnum D c ext op (met, m) = Ok (true, m').
Proof.
  intros (Hm & qs & bs & Eq & Eb & Hq & Hb). unfold add_op. rewrite Hm. change (dget String.eqb "Measurement" to_qir) with (Some (MEASUREMENT, "mz")). cbv beta iota. rewrite Eq, Eb.
  rewrite andb_false_r. unfold bind. destruct (measure_all_in c "mz" (combine qs bs) m) as (m' & E); [|rewrite E; eauto].
  rewrite Forall_forall in *. intros [q b] Hi. cbn. split; [apply Hq|apply Hb]; [eapply in_combine_l|eapply in_combine_r]; eauto.
Qed.
Lemma add_all c ext gates meas m : Forall (writable P pnum c ext) gates -> Forall (readable P c) meas -> exists s, add_ops P pnum D c ext (gates ++ meas) (false, m) = Ok s.
Proof.
  intros Hg Hm. rewrite add_ops_app. assert (A : exists m', add_ops P pnum D c ext gates (false, m) = Ok (false, m')).
  { revert m. induction Hg as [|op gates H _ IH]; intros m; cbn; [eauto|]. unfold bind. destruct (add_writable c ext op m H) as (m' & ->). apply IH. }
  destruct A as (m' & ->). unfold bind. clear Hg. generalize false. revert m'. induction Hm as [|op meas H _ IH]; intros m' b; cbn; [eauto|]. unfold bind. destruct (add_readable c ext op b m' H) as (m1 & ->). apply IH.
Qed.
Lemma base_kinds g n np nq : dget String.eqb g to_qir = Some (BASE, n) -> In (g, (nq, np)) arity -> exists f, qis_function n = Some (f, repeat KD np ++ repeat KQ nq).
Proof.
  unfold to_qir. cbn -[arity qis_function]. by_name g; intros E; try discriminate E; injection E as <-; intros Hi; cbn in Hi;
    repeat match goal with H : _ \/ _ |- _ => destruct H as [H|H] end; try discriminate Hi; try contradiction; injection Hi as <- <-; eexists; reflexivity.
Qed.
Lemma gate_runs c ext op i : gate_instr P pnum c ext op i -> writable P pnum c ext op -> exists k, execute i = Ok k.
Proof.
  intros (t & n & is & e & Et & Hq & Hi & -> & _ & H) (Hm & Hp & _ & (qs & Eq & _) & Hx). destruct Hp as [Hp|(nq & np & Ha & En & Ep & Hl & Hn)]; [contradiction|].
  assert (Hli : List.length is = nq). { rewrite <- (Forall2_length Hi). unfold qubits_of. rewrite Eq. auto. }
  unfold QirModel.execute. cbn [i_type i_name i_args i_ext]. destruct H as [-> | (-> & _ & u & -> & Hu)].
  - destruct (base_kinds _ _ _ _ Et Ha) as (f & ->). unfold bind. rewrite <- Hn, <- Hli, convert_ok. eauto.
  - cbn [f_kinds]. destruct (external_function _ _ Et) as (_ & He). destruct (Hx He) as (_ & E0). rewrite E0 in Hn |- *. cbn in Hn. rewrite Ep, <- Hn, En. cbn [repeat]. rewrite app_nil_r.
    assert (C := convert_ok P D dbl [] is). cbn [List.length repeat map app] in C. rewrite Hli in C. cbn [map app]. unfold bind. rewrite C. eauto.
Qed.
Lemma Forall2_exists {A B} (R : A -> B -> Prop) : forall l, Forall (fun a => exists b, R a b) l -> exists m, Forall2 R l m.
Proof. intros l H. induction H as [|a l (b & Hb) _ (m & IH)]; [exists []; constructor|]. exists (b :: m). constructor; auto. Qed.
Lemma Forall2_right {A B} (R : A -> B -> Prop) (Q : A -> Prop) (T : B -> Prop) : (forall a b, R a b -> Q a -> T b) -> forall l m, Forall2 R l m -> Forall Q l -> Forall T m.
Proof. intros H l m F. induction F; intros G; constructor; inversion G; subst; eauto. Qed.
Lemma compiles c ext gates meas : c_ops P c = gates ++ meas -> Forall (writable P pnum c ext) gates -> Forall (readable P c) meas ->
  exists t, to_qir_calls P pnum D dbl c ext = Ok t.
Proof.
  intros Ho Hg Hm. destruct (add_all c ext gates meas (new_module P D (List.length (c_qubits P c)) (List.length (c_bits P c))) Hg Hm) as ([met m] & E).
  assert (Em : qir_module P pnum D c ext = Ok m) by (unfold qir_module, bind; rewrite Ho, E; reflexivity).
  destruct (module_spec _ _ _ _ _ _ Em) as (gates' & meas' & Ho' & Hg' & Hm' & B).
  assert (Eg : gates' = gates /\ meas' = meas).
  { rewrite Ho in Ho'. clear - Ho' Hg Hm Hg' Hm'. revert gates' Ho' Hg'. induction gates as [|x gates IH]; intros [|y gates'] Ho' Hg'; cbn in Ho'.
    - auto.
    - exfalso. subst meas. inversion Hm as [|? ? (H & _)]; subst. inversion Hg'; subst. contradiction.
    - exfalso. subst meas'. inversion Hm'; subst. inversion Hg as [|? ? (H & _)]; subst. contradiction.
    - injection Ho' as <- Ho'. inversion Hg; inversion Hg'; subst. destruct (IH H2 gates' Ho' H6) as (-> & ->). auto. }
  destruct Eg as (-> & ->).
  destruct (bu_body _ _ _ _ _ _ _ _ _ B) as (gi & Eb & Hgi). destruct (bu_meas _ _ _ _ _ _ _ _ _ B) as (mi & Ee & Hmi). destruct (bu_out _ _ _ _ _ _ _ _ _ B) as (oi & Eo & Hoi). cbn in Eb, Ee, Eo.
  destruct (Forall2_exists (fun i k => execute i = Ok k) gi) as (a & Ha); [eapply (Forall2_right _ (writable P pnum c ext)); [|exact Hgi|exact Hg]; intros; eapply gate_runs; eauto|].
  destruct (Forall2_exists (fun i k => execute i = Ok k) mi) as (b & Hb).
  { eapply (Forall2_right _ (fun _ => True)); [|exact Hmi|apply Forall_forall; auto]. intros x i (p & q & _ & _ & ->) _. eexists. reflexivity. }
  destruct (Forall2_exists (fun i k => record_call P D i = Ok k) oi) as (o & Hoo).
  { eapply (Forall2_right _ (fun _ => True)); [|exact Hoi|apply Forall_forall; auto]. intros x i (p & _ & ->) _. eexists. reflexivity. }
  assert (Bc := body_calls_back P D dbl m a b o). rewrite Eb, Ee, Eo in Bc. specialize (Bc Ha Hb Hoo).
  unfold to_qir_calls, bind. rewrite Em. unfold QirModel.compile, QirModel.compile_now. destruct B as [_ _ _ _ _ Bm _ Bcm _]. rewrite Bcm, Bc. cbn in Bm |- *. rewrite Bm. cbn. eauto.
Qed.

(** ** Signatures *)
Lemma kinds_args : forall ps is, map (kind_of P) (map (ANum P) ps ++ map (AQubit P) is) = repeat KD (List.length ps) ++ repeat KQ (List.length is).
Proof. induction ps as [|p ps IH]; intros is; cbn; [|now rewrite IH]. induction is; cbn; [reflexivity|congruence]. Qed.
Lemma signature c ext op i : gate_instr P pnum c ext op i -> proper P op -> ~ is_measurement P op -> i_type P i = EXTERNAL ->
  exists f, i_ext P i = Some f /\ (f_kinds f = map (kind_of P) (i_args P i) <-> params_of P op = []).
Proof.
  intros (t & n & is & e & Et & Hq & Hi & -> & _ & H) Hp Hm Ht. cbn in Ht. subst t. destruct H as [H | (_ & _ & u & -> & Hu)]; [discriminate H|].
  destruct Hp as [Hp|(nq & np & Ha & En & Ep & Hl & Hn)]; [contradiction|].
  assert (Hli : List.length is = nq). { rewrite <- (Forall2_length Hi). unfold qubits_of. destruct (o_qubits P op) as [qs|]; [auto|now destruct Hq]. }
  cbn. eexists. split; [reflexivity|]. cbn. rewrite kinds_args, En, Ep, Hn, Hli. clear Ep. split.
  - intros E. destruct (construct_external (fun _ => false) _ _ _ _ Et Ha E) as (_ & _ & _ & _ & H0). rewrite H0 in Hn. now destruct (params_of P op).
  - intros E. rewrite E in Hn. cbn in Hn. rewrite <- Hn. cbn. apply app_nil_r.
Qed.
Lemma signatures c ext m : qir_module P pnum D c ext = Ok m -> Forall (proper P) (c_ops P c) ->
  exists gates meas, c_ops P c = gates ++ meas /\ Forall (is_measurement P) meas /\
    Forall2 (fun op i => (i_type P i = EXTERNAL <-> In (o_name P op) extra) /\
       (i_type P i = EXTERNAL -> exists f, i_ext P i = Some f /\ (f_kinds f = map (kind_of P) (i_args P i) <-> params_of P op = []))) gates (q_body P D m).
Proof.
  intros Em Hp. destruct (module_spec _ _ _ _ _ _ Em) as (gates & meas & Ho & Hg & Hm & B). exists gates, meas. split; [exact Ho|]. split; [exact Hm|].
  destruct (bu_body _ _ _ _ _ _ _ _ _ B) as (gi & Eb & Hgi). cbn in Eb. rewrite Eb. rewrite Ho in Hp. apply Forall_app in Hp. destruct Hp as (Hp & _).
  clear - Hgi Hp Hg. induction Hgi as [|op i gates gi Hi _ IH]; constructor; inversion Hp; inversion Hg; subst; auto. split; [|intros; eapply signature; eauto].
  destruct Hi as (t & n & is & e & Et & _ & _ & -> & _ & H). cbn. destruct H as [->|(-> & _)].
  - split; [discriminate|]. intros He. exfalso. destruct H1 as [H1|(nq & np & Ha & _)]; [contradiction|].
    destruct (known_gate (o_name P op)) as (t & n' & E & Ht); [change (o_name P op) with (fst (o_name P op, (nq, np))); now apply in_map|]. rewrite Et in E. injection E as <- <-. destruct Ht as [(_ & Ht)|(Ht & _)]; [contradiction|discriminate].
  - split; [|reflexivity]. intros _. now destruct (external_function _ _ Et).
Qed.
Lemma parametrised_fails c ext : Forall (proper P) (c_ops P c) -> (exists op, In op (c_ops P c) /\ In (o_name P op) extra /\ params_of P op <> []) ->
  forall t, to_qir_calls P pnum D dbl c ext <> Ok t.
Proof.
  intros Hp (op & Ho & He & Hn) t Ht. destruct (calls_spec _ _ _ _ _ _ _ Ht) as (m & gates & meas & cs & Em & Eo & Hg & Hm & B & Hb & _).
  apply body_calls_ok in Hb. destruct Hb as (a & b & o & _ & Ha & _). destruct (bu_body _ _ _ _ _ _ _ _ _ B) as (gi & Eb & Hgi). cbn in Eb. rewrite Eb in Ha.
  assert (Hop : In op gates). { rewrite Eo in Ho. apply in_app_or in Ho. destruct Ho as [Ho|Ho]; [exact Ho|]. exfalso. apply (proj1 (Forall_forall _ _) Hm) in Ho. rewrite Ho in He. cbn in He. intuition discriminate. }
  destruct (Forall2_in_l _ _ _ Hgi op Hop) as (i & Hi & G). destruct (Forall2_in_l _ _ _ Ha i Hi) as (k & _ & Ek).
  assert (Hpo : proper P op) by (apply (proj1 (Forall_forall _ _) Hp); rewrite Eo; apply in_or_app; auto). assert (Hmo : ~ is_measurement P op) by exact (proj1 (Forall_forall _ _) Hg op Hop).
  pose proof G as G'. destruct G as (ty & n & is & e & Et & Hq & Hii & -> & _ & H). unfold QirModel.execute in Ek. cbn [i_type i_name i_args i_ext] in Ek. destruct H as [-> | (-> & _ & u & -> & Hu)].
  - destruct Hpo as [Hpo|(nq & np & Har & _)]; [contradiction|]. destruct (known_gate (o_name P op)) as (ty & n' & E & Hty); [change (o_name P op) with (fst (o_name P op, (nq, np))); now apply in_map|].
    rewrite Et in E. injection E as <- <-. destruct Hty as [(_ & Hty)|(Hty & _)]; [contradiction|discriminate].
  - destruct (signature _ _ _ _ G' Hpo Hmo eq_refl) as (f & Ef & Hs). cbn in Ef, Hs. injection Ef as <-. apply Hn. apply Hs. cbn [f_kinds] in *. unfold bind in Ek.
    destruct (convert P D dbl _ _) as [r|] eqn:Ec; [|discriminate]. apply convert_args in Ec. destruct Ec as (_ & ->). now rewrite kinds_args.
Qed.

(** ** Recompiling *)
Lemma del_at_split {A} : forall n (l : list A), del_at n l = firstn n l ++ skipn (S n) l.
Proof. induction n as [|n IH]; intros [|x l]; cbn; auto. f_equal. rewrite IH. destruct l; reflexivity. Qed.
Lemma firstn_snoc {A} : forall n (l : list A) x, nth_error l n = Some x -> firstn (S n) l = firstn n l ++ [x].
Proof. induction n as [|n IH]; intros [|y l] x H; try discriminate; cbn in *; [now injection H as ->|]. now rewrite <- (IH _ _ H). Qed.
Lemma external_eqb x : itype_eqb (i_type P x) EXTERNAL = is_external P x.
Proof. unfold is_external. destruct (i_type P x); reflexivity. Qed.
Lemma drop_split : forall k (l : list instr), k <= List.length l -> drop_external P k l = filter (fun x => negb (is_external P x)) (firstn k l) ++ skipn k l.
Proof.
  induction k as [|k IH]; intros l Hk; [reflexivity|]. cbn [drop_external]. destruct (nth_error l k) as [x|] eqn:E; [|apply nth_error_None in E; lia].
  rewrite external_eqb, (firstn_snoc _ _ _ E), filter_app. cbn [filter]. assert (Sk : skipn k l = x :: skipn (S k) l).
  { clear - E. revert l E. induction k as [|k IH]; intros [|y l] E; try discriminate; cbn in *; [now injection E as ->|auto]. }
  destruct (is_external P x); cbn [negb].
  - rewrite IH, del_at_split.
    + rewrite firstn_app, firstn_firstn, Nat.min_id, firstn_length_le, Nat.sub_diag by lia. cbn [firstn]. rewrite !app_nil_r.
      rewrite skipn_app, firstn_length_le, Nat.sub_diag by lia. rewrite (skipn_all2 (firstn k l)) by (rewrite firstn_length_le; lia). reflexivity.
    + rewrite del_at_split, app_length, firstn_length_le by lia. lia.
  - rewrite IH by lia. rewrite Sk, <- app_assoc. reflexivity.
Qed.
Lemma drop_filter (l : list instr) : drop_external P (List.length l) l = filter (fun x => negb (is_external P x)) l.
Proof. rewrite drop_split, firstn_all, skipn_all, app_nil_r; auto. Qed.
Lemma survive (f : instr -> res (call D)) : forall l ks, Forall2 (fun i k => f i = Ok k) l ks ->
  Forall2 (fun i k => f i = Ok k) (filter (fun x => negb (is_external P x)) l) (survivors P D l ks).
Proof. intros l ks H. induction H as [|x k l ks Hx _ IH]; cbn; [constructor|]. destruct (is_external P x); cbn; [exact IH|now constructor]. Qed.

Lemma compiled_ok force strict (m m1 : qmodule) : compile force strict m = (m1, Ok tt) ->
  q_compiled P D m1 = true /\ q_ret P D m1 = RLive /\
  exists old cs, body_calls m1 = (cs, None) /\ q_qir P D m1 = Some (old ++ [mkMain D cs true]).
Proof.
  assert (N : forall m0 m2, compile_now strict m0 = (m2, Ok tt) -> q_compiled P D m2 = true /\ q_ret P D m2 = RLive /\ exists old cs, body_calls m2 = (cs, None) /\ q_qir P D m2 = Some (old ++ [mkMain D cs true])).
  { intros m0 m2. unfold QirModel.compile_now. destruct (body_calls m0) as [cs [e|]] eqn:E; [discriminate|]. destruct (negb _ && strict)%bool; [discriminate|]. intros [= <-]. cbn.
    split; [reflexivity|]. split; [reflexivity|]. exists (q_mains P D m0), cs. split; [exact E|reflexivity]. }
  unfold QirModel.compile. destruct (q_compiled P D m); [|apply N]. destruct force; [|discriminate]. destruct (reset P D false m) as [m' [u|e]]; [apply N|discriminate].
Qed.
Lemma recompile_live strict (m : qmodule) a b o : q_compiled P D m = true -> q_ret P D m = RLive ->
  let keep := filter (fun x => negb (is_external P x)) in
  Forall2 (fun i k => execute i = Ok k) (keep (q_body P D m)) a -> Forall2 (fun i k => execute i = Ok k) (keep (q_meas P D m)) b ->
  Forall2 (fun i k => record_call P D i = Ok k) (keep (q_out P D m)) o ->
  exists m', compile true strict m = (m', Ok tt) /\ q_qir P D m' = Some [mkMain D (init_call D :: a ++ b ++ o) true] /\
    q_body P D m' = keep (q_body P D m) /\ q_meas P D m' = keep (q_meas P D m) /\ q_out P D m' = keep (q_out P D m).
Proof.
  intros Hc Hr keep Ha Hb Ho. unfold QirModel.compile. rewrite Hc. unfold reset, remove_external. cbn [q_ret q_nq q_nb q_body q_meas q_out q_ext q_decl q_mains q_compiled q_qir]. rewrite Hr.
  destruct (redeclare (q_ext P D m) []) as [ext decl]. unfold QirModel.compile_now. rewrite !drop_filter. fold keep.
  set (m' := mkQ P D (q_nq P D m) (q_nb P D m) (keep (q_body P D m)) (keep (q_meas P D m)) (keep (q_out P D m)) ext decl [] RErased false None).
  rewrite (body_calls_back P D dbl m' a b o) by assumption. cbn. eexists. split; [reflexivity|]. cbn. auto.
Qed.
Lemma recompiled force strict strict' (m m1 : qmodule) : compile force strict m = (m1, Ok tt) ->
  exists old a b o m2, q_qir P D m1 = Some (old ++ [mkMain D (init_call D :: a ++ b ++ o) true]) /\
    List.length a = List.length (q_body P D m1) /\ List.length b = List.length (q_meas P D m1) /\ List.length o = List.length (q_out P D m1) /\
    compile true strict' m1 = (m2, Ok tt) /\
    q_qir P D m2 = Some [mkMain D (init_call D :: survivors P D (q_body P D m1) a ++ survivors P D (q_meas P D m1) b ++ survivors P D (q_out P D m1) o) true].
Proof.
  intros H. destruct (compiled_ok _ _ _ _ H) as (Hc & Hr & old & cs & Hb & Hq). apply body_calls_ok in Hb. destruct Hb as (a & b & o & -> & Ha & Hb & Ho).
  destruct (recompile_live strict' m1 _ _ _ Hc Hr (survive _ _ _ Ha) (survive _ _ _ Hb) (survive _ _ _ Ho)) as (m2 & E & Q & _).
  exists old, a, b, o, m2. rewrite <- (Forall2_length Ha), <- (Forall2_length Hb), <- (Forall2_length Ho). auto 10.
Qed.
Lemma survivors_all : forall l ks, List.length ks = List.length l -> Forall (fun x => i_type P x <> EXTERNAL) l -> survivors P D l ks = ks.
Proof.
  intros l ks Hl H. revert ks Hl. induction H as [|x l Hx _ IH]; intros [|k ks] Hl; try discriminate; auto. cbn in *. unfold is_external. destruct (i_type P x); try contradiction; rewrite IH; auto.
Qed.
Lemma keep_all : forall l : list instr, Forall (fun x => i_type P x <> EXTERNAL) l -> filter (fun x => negb (is_external P x)) l = l.
Proof. intros l H. induction H as [|x l Hx _ IH]; cbn; auto. unfold is_external at 1. destruct (i_type P x); try contradiction; cbn; now rewrite IH. Qed.
Lemma recompiled_often force strict (m m1 : qmodule) ss s : compile force strict m = (m1, Ok tt) ->
  Forall (fun x => i_type P x <> EXTERNAL) (q_body P D m1 ++ q_meas P D m1 ++ q_out P D m1) ->
  exists old cs, q_qir P D m1 = Some (old ++ [mkMain D cs true]) /\
    q_qir P D (fold_left (fun m s => fst (compile true s m)) (ss ++ [s]) m1) = Some [mkMain D cs true].
Proof.
  intros H Hx. apply Forall_app in Hx. destruct Hx as (Xa & Hx). apply Forall_app in Hx. destruct Hx as (Xb & Xo).
  destruct (compiled_ok _ _ _ _ H) as (Hc & Hr & old & cs & Hb & Hq). apply body_calls_ok in Hb. destruct Hb as (a & b & o & -> & Ha & Hb & Ho).
  exists old, (init_call D :: a ++ b ++ o). split; [exact Hq|]. clear H Hq. revert m1 Hc Hr Ha Hb Ho Xa Xb Xo.
  induction ss as [|s0 ss IH]; intros m1 Hc Hr Ha Hb Ho Xa Xb Xo; cbn.
  - destruct (recompile_live s m1 a b o Hc Hr) as (m2 & E & Q & _); rewrite ?keep_all; auto. now rewrite E.
  - destruct (recompile_live s0 m1 a b o Hc Hr) as (m2 & E & Q & E1 & E2 & E3); rewrite ?keep_all; auto. rewrite keep_all in E1, E2, E3 by assumption. rewrite E. cbn [fst].
    destruct (compiled_ok _ _ _ _ E) as (Hc2 & Hr2 & _). apply IH; rewrite ?E1, ?E2, ?E3; auto.
Qed.

(** Whatever was called on the module before. *)
Lemma live_kept x (m : qmodule) : (q_compiled P D m = true -> q_ret P D m = RLive) -> let m' := fst (qstep P D dbl x m) in q_compiled P D m' = true -> q_ret P D m' = RLive.
Proof.
  assert (N : forall strict (m0 : qmodule), (q_compiled P D m0 = true -> q_ret P D m0 = RLive) -> q_compiled P D (fst (compile_now strict m0)) = true -> q_ret P D (fst (compile_now strict m0)) = RLive).
  { intros strict m0 H0. unfold QirModel.compile_now. destruct (body_calls m0) as [cs [e|]]; [exact H0|]. destruct (negb _ && strict)%bool; reflexivity. }
  assert (R : forall rm, (q_compiled P D m = true -> q_ret P D m = RLive) -> q_compiled P D (fst (reset P D rm m)) = true -> q_ret P D (fst (reset P D rm m)) = RLive).
  { intros rm H0. unfold reset, remove_external. cbn [q_ret q_nq q_nb q_body q_meas q_out q_ext q_decl q_mains q_compiled q_qir]. destruct (q_ret P D m); cbn; auto. destruct rm; [discriminate|]. destruct (redeclare _ _). discriminate. }
  intros H. destruct x as [b i|n ks|force strict|rm]; cbn; auto.
  unfold QirModel.compile. destruct (q_compiled P D m) eqn:Ec; [|apply N; congruence]. destruct force; [|cbn; auto]. specialize (R false). destruct (reset P D false m) as [m' [u|e]]; cbn in *; [apply N|]; auto.
Qed.
Lemma live xs : forall m, (q_compiled P D m = true -> q_ret P D m = RLive) -> q_compiled P D (qruns P D dbl xs m) = true -> q_ret P D (qruns P D dbl xs m) = RLive.
Proof. induction xs as [|x xs IH]; intros m H; cbn; [exact H|]. apply IH. now apply live_kept. Qed.
Lemma recompile_history nq nb xs strict a b o : let m := qruns P D dbl xs (new_module P D nq nb) in q_compiled P D m = true ->
  let keep := filter (fun x => negb (is_external P x)) in
  Forall2 (fun i k => execute i = Ok k) (keep (q_body P D m)) a -> Forall2 (fun i k => execute i = Ok k) (keep (q_meas P D m)) b ->
  Forall2 (fun i k => record_call P D i = Ok k) (keep (q_out P D m)) o ->
  exists m', compile true strict m = (m', Ok tt) /\ q_qir P D m' = Some [mkMain D (init_call D :: a ++ b ++ o) true] /\
    q_body P D m' = keep (q_body P D m) /\ q_meas P D m' = keep (q_meas P D m) /\ q_out P D m' = keep (q_out P D m).
Proof. intros m Hc. apply recompile_live; [exact Hc|]. apply live; [discriminate|exact Hc]. Qed.
End QirProofs4.

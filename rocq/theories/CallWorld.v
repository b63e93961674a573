(** Proofs for C74: calling a circuit inside another one. *)
From Coq Require Import List ZArith NArith String Bool Arith Lia Reals.
From Verif Require Import Py CRing Cplx SimModel SimSpec SimReal KernelSpec UnitarySpec GateModel GateProofs CallSpec CallProofs CallProofs2 CallProofs3 RegisterModel
  WorldModel WorldSpec WorldSpec2 WorldSpec3 WorldSpec4 WorldProofs2 WorldArity2 ReplayProofs WorldStep LinkModel LinkSpec LinkProofs CallSpec2.
Import ListNotations.
Local Open Scope nat_scope.

(** ** What the simulator sees of the circuit afterwards *)
Definition shows (s : sop Ccring) (z : opobj R) : Prop :=
  (forall n, seen_kind n z = Some (so_kind Ccring s)) /\ opt_all qubit_id (o_qubits z) = Some (so_qubits Ccring s) /\
  o_cond z = None /\ so_cond Ccring s = [].

Lemma all_some_app {A B} (f : A -> option B) l l' r r' : all_some f l = Some r -> all_some f l' = Some r' -> all_some f (l ++ l') = Some (r ++ r')%list.
Proof.
  revert r. induction l as [|a l IH]; intros r; cbn; [now intros [= <-]|]. destruct (f a); [|discriminate].
  destruct (all_some f l); [|discriminate]. intros [= <-] H. now rewrite (IH _ eq_refl H).
Qed.
Lemma all_some_ext {A B} (f g : A -> option B) l r : (forall a b, f a = Some b -> g a = Some b) -> all_some f l = Some r -> all_some g l = Some r.
Proof.
  intros H. revert r. induction l as [|a l IH]; intros r; cbn; [auto|]. destruct (f a) eqn:E; [|discriminate]. rewrite (H _ _ E).
  destruct (all_some f l); [|discriminate]. intros [= <-]. now rewrite (IH _ eq_refl).
Qed.
Lemma seen_op_keep (v v' : world R) zs o s : w_op v' = (w_op v ++ zs)%list -> seen_op v o = Some s -> seen_op v' o = Some s.
Proof.
  intros E. unfold seen_op. destruct (nth_error (w_op v) o) as [y|] eqn:Ey; [|discriminate].
  rewrite E, nth_error_app1 by (apply nth_error_Some; congruence). now rewrite Ey.
Qed.
Lemma seen_new (v' : world R) pre new zs : w_op v' = (pre ++ zs)%list -> Forall2 shows new zs ->
  all_some (seen_op v') (seq (List.length pre) (List.length zs)) = Some new.
Proof.
  intros E F. revert pre E. induction F as [|s z new zs (H1 & H2 & H3 & H4) F IH]; intros pre E; [reflexivity|].
  cbn [List.length seq all_some]. unfold seen_op at 1.
  rewrite E, nth_error_app2, Nat.sub_diag by lia. cbn [nth_error]. rewrite H1, H2, H3. cbn [opt_all].
  specialize (IH (pre ++ [z])%list). rewrite app_length in IH. cbn [List.length] in IH. rewrite Nat.add_1_r in IH.
  rewrite IH by now rewrite E, <- app_assoc. destruct s as [a b c]. cbn in *. now subst c.
Qed.

Definition reg_ok (w : world R) (y : call R) : Prop := own_methods R w y /\ keeps_registers R y.

Lemma seen_qubits ptrue peqb (v : world R) d xd sd : reaches R ptrue peqb reg_ok v -> small R v -> nth_error (w_circ v) d = Some xd ->
  seen v d = Some sd -> all_some qubit_id (circuit_qubits xd) = Some (sc_qubits Ccring sd) /\ all_some (seen_op v) (c_ops xd) = Some (sc_ops Ccring sd).
Proof.
  intros R S E. destruct (C13_q _ ptrue peqb v d xd R S E) as (r & w' & Eq & Ei & _). unfold seen. rewrite E, Eq. cbn [snd]. rewrite Ei.
  destruct (all_some qubit_id _) as [qs|]; [|discriminate]. destruct (all_some (seen_op v) _) as [os|]; [|discriminate]. now intros [= <-].
Qed.
Lemma seen_after ptrue peqb (v v' : world R) d xd sd new zs : reaches R ptrue peqb reg_ok v -> reaches R ptrue peqb reg_ok v' -> small R v -> small R v' ->
  nth_error (w_circ v) d = Some xd -> recording R v = Some d -> seen v d = Some sd -> w_op v' = (w_op v ++ zs)%list ->
  only_adds R v v' (seq (List.length (w_op v)) (List.length zs)) -> Forall2 shows new zs ->
  seen v' d = Some (mkScirc Ccring (sc_qubits Ccring sd) (sc_ops Ccring sd ++ new)%list).
Proof.
  intros Rv Rv' Sv Sv' E Hr Hs Ho Ha F. destruct (seen_qubits _ _ _ _ _ _ Rv Sv E Hs) as (Q & O).
  destruct (oa_circ _ _ _ _ Ha d xd E) as (x' & E' & H & _). destruct (H Hr) as (vq & vb & ->).
  destruct (C13_q R ptrue peqb v' d _ Rv' Sv' E') as (r & w' & Eq & Ei & _). unfold seen. rewrite E', Eq. cbn [snd]. rewrite Ei.
  change (circuit_qubits _) with (circuit_qubits xd). rewrite Q. cbn [c_ops].
  rewrite (all_some_app _ _ _ (sc_ops Ccring sd) new); [reflexivity| |now apply seen_new].
  eapply all_some_ext; [|exact O]. intros o s. now apply seen_op_keep with (zs := zs).
Qed.

Lemma ids_of_items l : all_some qubit_id (map IQubit l) = Some l.
Proof. induction l as [|q l IH]; cbn; [reflexivity|now rewrite IH]. Qed.

(** ** From the template to the recorded operations *)
Section Renamed.
Variable st : scirc Ccring.
Variable ids : list nat.
Definition copied (s : sop Ccring) (z : opobj R) : Prop :=
  (forall n, seen_kind n z = Some (so_kind Ccring s)) /\ o_cond z = None /\
  exists qs l, so_qubits Ccring s = Some qs /\ o_qubits z = Some l /\
    Forall2 (renamed (map IQubit (sc_qubits Ccring st)) (map IQubit ids)) (map IQubit qs) l.

Lemma renamed_ids qs l : Forall2 (renamed (map IQubit (sc_qubits Ccring st)) (map IQubit ids)) (map IQubit qs) l ->
  exists qs', l = map IQubit qs' /\ Forall2 (fun q q' => exists j, nth_error (sc_qubits Ccring st) j = Some q /\ nth_error ids j = Some q') qs qs'.
Proof.
  revert l. induction qs as [|q qs IH]; intros l F; inversion F as [|? q' ? l' (j & H1 & H2) F']; subst; [exists []; now split|].
  destruct (IH _ F') as (qs' & -> & G). rewrite nth_error_map in H1, H2.
  destruct (nth_error (sc_qubits Ccring st) j) as [a|] eqn:Ea; [|discriminate]. destruct (nth_error ids j) as [b|] eqn:Eb; [|discriminate].
  injection H1 as ->. injection H2 as <-. exists (b :: qs'). split; [reflexivity|]. constructor; [eauto|exact G].
Qed.
Lemma copied_image ops zs : Forall2 copied ops zs -> exists new, Forall2 (image Ccring st ids) ops new /\ Forall2 shows new zs.
Proof.
  intros F. induction F as [|s z ops zs (H1 & H2 & qs & l & H3 & H4 & H5) F (new & IH1 & IH2)]; [exists []; now split|].
  destruct (renamed_ids _ _ H5) as (qs' & -> & G).
  exists (mkSop Ccring (so_kind Ccring s) (Some qs') [] :: new). split; constructor; auto.
  - split; cbn; auto. exists qs, qs'. auto.
  - repeat split; cbn; auto. rewrite H4. cbn. now rewrite ids_of_items.
Qed.
End Renamed.

Lemma positions (l ids : list nat) : (forall q, In q ids -> In q l) -> exists ts, Forall2 (fun q t => nth_error l (N.to_nat t) = Some q) ids ts.
Proof.
  induction ids as [|q ids IH]; intros H; [exists []; constructor|]. destruct IH as (ts & F); [intros; apply H; now right|].
  destruct (In_nth_error _ _ (H q (or_introl eq_refl))) as (i & E). exists (N.of_nat i :: ts). constructor; [now rewrite Nat2N.id|exact F].
Qed.
Lemma map_IQubit_in q l : In (IQubit q) (map IQubit l) -> In q l.
Proof. rewrite in_map_iff. now intros (q' & [= ->] & H). Qed.
Lemma map_IQubit_inj l l' : map IQubit l = map IQubit l' -> l = l'.
Proof. revert l'. induction l as [|a l IH]; intros [|b l']; cbn; try discriminate; auto. intros [= -> H]. f_equal. auto. Qed.

Section Calls.
Variable ptrue : R -> bool.
Variable peqb : R -> R -> bool.
Variable extra : list cls.
Variable p : prog R.
Variable v : world R.
Hypothesis Hex : executes R ptrue peqb (own_ok R) p (start R (library_classes ++ extra)%list).
Hypothesis Hvi : visits R ptrue peqb p (start R (library_classes ++ extra)%list) v.
Hypothesis Hsm : small R v.
Variable a : call R.
Hypothesis Hok : own_ok R v a.
Let v' := fst (do_call ptrue peqb a v).

Lemma after_visits : exists p', executes R ptrue peqb (own_ok R) p' (start R (library_classes ++ extra)%list) /\
  visits R ptrue peqb p' (start R (library_classes ++ extra)%list) v'.
Proof. destruct (visits_step R ptrue peqb (own_ok R) a v p _ Hvi) as (p' & H1 & H2). exists p'. auto. Qed.
Lemma after_small l : only_adds R v v' l -> small R v'.
Proof. intros H. unfold small. now rewrite (oa_qubit _ _ _ _ H), (oa_bit _ _ _ _ H). Qed.

(** A circuit [st] of which the recorded operations are copies is applied. *)
Lemma copied_applied rnd d xd sd st ids zs : nth_error (w_circ v) d = Some xd -> recording R v = Some d -> seen v d = Some sd ->
  List.length (circuit_qubits xd) <= 30 -> NoDup ids -> (forall q, In q ids -> In (IQubit q) (circuit_qubits xd)) ->
  List.length ids = List.length (sc_qubits Ccring st) -> wf_circ st -> unitary_circ st -> measurement_free st -> unconditional st ->
  w_op v' = (w_op v ++ zs)%list -> only_adds R v v' (seq (List.length (w_op v)) (List.length zs)) ->
  Forall2 (copied st ids) (sc_ops Ccring st) zs -> applied rnd v v' d st ids.
Proof.
  intros E Hr Hs Hn Nd Hin Hl Hwf Hu Hm Hc Ho Ha F. destruct (copied_image _ _ _ _ F) as (new & G & Sh).
  destruct after_visits as (p' & He' & Hv').
  pose proof (link_reaches_q ptrue peqb extra p v Hex Hvi) as Rv. pose proof (link_reaches_q ptrue peqb extra p' v' He' Hv') as Rv'.
  pose proof (after_small _ Ha) as Sm'.
  pose proof (seen_after ptrue peqb v v' d xd sd new zs Rv Rv' Hsm Sm' E Hr Hs Ho Ha Sh) as Hs'.
  destruct (seen_qubits ptrue peqb v d xd sd Rv Hsm E Hs) as (Q & _).
  destruct (link_nodup ptrue peqb extra p v Hex Hvi Hsm d xd E) as (Ndq & Fq).
  destruct (read_qubits _ Fq) as (qs & Eqs & Hq). rewrite Q in Eqs. injection Eqs as <-.
  assert (Nds : NoDup (sc_qubits Ccring sd)) by (rewrite Hq in Ndq; exact (NoDup_map_inv _ _ Ndq)).
  assert (Hin' : forall q, In q ids -> In q (sc_qubits Ccring sd)) by (intros q H; apply map_IQubit_in; rewrite <- Hq; auto).
  destruct (positions _ _ Hin') as (ts & Hts).
  assert (Hne : sc_qubits Ccring sd <> []).
  { intros H. destruct Hwf as (_ & W & _). destruct (sc_qubits Ccring st); [now apply W|]. destruct ids as [|q ids']; [discriminate Hl|].
    specialize (Hin' q (or_introl eq_refl)). now rewrite H in Hin'. }
  exists sd, (mkScirc Ccring (sc_qubits Ccring sd) (sc_ops Ccring sd ++ new)%list), ts. split; [exact Hs|]. split; [exact Hs'|]. split; [reflexivity|].
  split; [exact Hts|]. intros le. split; [exact (operator_exists Ccring le st Hwf Hm Hc)|].
  intros M HM. split; [exact (operator_unitary Ccring le st Hwf Hm Hc M Hu HM)|].
  refine (repeated_acts Ccring R Cgtb Cis0 Cinvsqrt rnd le st sd new ids ts M Hwf Hm Hc Nds Hne _ Nd Hl Hts G HM).
  unfold SimModel.num_qubits. rewrite <- (map_length IQubit), <- Hq. lia.
Qed.

(** ** Circuits without parameters *)
Lemma stands_for_numbers (ps ps' : list (param R)) l : all_some number_of ps = Some l -> Forall2 (stands_for R ptrue v) ps ps' -> ps' = ps.
Proof.
  intros H F. revert l H. induction F as [|q q2 ps ps' Hab F IH]; intros l H; [reflexivity|]. cbn in H. destruct q as [r|]; [|discriminate H].
  cbn in Hab. subst q2. cbn in H. destruct (all_some number_of ps); [|discriminate H]. f_equal. eauto.
Qed.
Lemma seen_kind_gate n n' (y : opobj R) k : seen_kind n y = Some k -> is_measure k = false -> seen_kind n' y = Some k.
Proof.
  unfold seen_kind. destruct (nth_error library (o_cls y)) as [[x f]|]; [|discriminate]. destruct (k_kind x); auto.
  destruct (opt_all bit_id (o_bits y)); [|discriminate]. cbn. intros [= <-]. discriminate.
Qed.
Lemma class_kind (y : opobj R) k : nth_error (w_cls v) (o_cls y) = Some k -> forall x f, nth_error library (o_cls y) = Some (x, f) ->
  k_name k = k_name x /\ k_kind k = k_kind x /\ (forall o, nth_error (w_op v) o = Some y -> has_params (k_kind k) = false -> o_params y = []).
Proof.
  intros Ek x f El. pose proof (link_class _ _ _ _ El : nth_error (library_classes ++ extra)%list (o_cls y) = Some x) as Hks.
  destruct (parameters_kept R ptrue peqb _ p v (o_cls y) x Hvi Hks) as ((k' & Ek' & Nm & Kd) & Hp). rewrite Ek in Ek'. injection Ek' as <-.
  split; [exact Nm|]. split; [exact Kd|]. intros o Eo Hh. destruct (Hp o y Eo eq_refl) as [H|(H & _)]; [exact H|]. congruence.
Qed.

Lemma plain_copied st s0 o y k qs kq kbs (z : opobj R) ids : seen_op v o = Some s0 -> is_measure (so_kind Ccring s0) = false ->
  nth_error (w_op v) o = Some y -> nth_error (w_cls v) (o_cls y) = Some k ->
  kq = map IQubit (sc_qubits Ccring st) -> qs = map IQubit ids -> o_qubits y <> None ->
  repeats R (stands_for R ptrue v) v kq qs kbs (k_kind k) y z ->
  copied st ids (mkSop Ccring (so_kind Ccring s0) (so_qubits Ccring s0) []) z.
Proof.
  intros Hs Hm Ey Ek -> -> Hnn [Rc (l & El & Rq) Rp _ Rd]. unfold seen_op in Hs. rewrite Ey in Hs.
  destruct (seen_kind o y) as [g|] eqn:Eg; [|discriminate]. destruct (opt_all qubit_id (o_qubits y)) as [oq|] eqn:Eq; [|discriminate].
  destruct (opt_all bit_id (o_cond y)) as [bs|]; [|discriminate]. injection Hs as <-. cbn [so_kind so_qubits] in *.
  destruct (o_qubits y) as [ql|] eqn:Eqy; [|congruence]. cbn in Eq. destruct (all_some qubit_id ql) as [qn|] eqn:En; [|discriminate]. injection Eq as <-.
  assert (Hql : ql = map IQubit qn).
  { clear -En. revert qn En. induction ql as [|q ql IH]; intros qn; cbn; [now intros [= <-]|]. destruct q; try discriminate. cbn.
    destruct (all_some qubit_id ql); [|discriminate]. intros [= <-]. cbn. f_equal. auto. }
  assert (Hp : o_params z = o_params y).
  { pose proof Eg as Eg'. unfold seen_kind in Eg'. destruct (nth_error library (o_cls y)) as [[x f]|] eqn:Elib; [|discriminate].
    destruct (class_kind y k Ek x f Elib) as (_ & Kd & Hpar). specialize (Hpar o Ey). rewrite Kd in *. unfold same_params in Rp.
    destruct (k_kind x) eqn:Kx.
    - now rewrite Hpar.
    - destruct (all_some number_of (o_params y)) eqn:Ep; [|discriminate]. destruct (recording R v); [|exact Rp].
      destruct Rp as (xd & _ & A & B). destruct (c_par xd) eqn:Ec; [destruct (c_vars xd) eqn:Evs|].
      + eapply stands_for_numbers; [exact Ep|]. apply B. now intros [_ H].
      + apply A. split; congruence.
      + eapply stands_for_numbers; [exact Ep|]. apply B. intros [H _]. congruence.
    - now rewrite Hpar.
    - exact Rp.
    - exfalso. destruct (opt_all bit_id (o_bits y)); [|discriminate]. cbn in Eg'. injection Eg' as <-. discriminate Hm. }
  split; [|split].
  - intros n. cbn. rewrite <- (seen_kind_gate o n y g Eg Hm). unfold seen_kind. rewrite Rc, Hp.
    destruct (nth_error library (o_cls y)) as [[x f]|] eqn:Elib; [|reflexivity]. destruct (k_kind x) eqn:Kx; try reflexivity.
    exfalso. unfold seen_kind in Eg. rewrite Elib, Kx in Eg. destruct (opt_all bit_id (o_bits y)); [|discriminate]. injection Eg as <-. discriminate Hm.
  - exact Rd.
  - exists qn, l. cbn. split; [reflexivity|]. split; [exact El|]. unfold oqubits in Rq. rewrite Eqy, Hql in Rq. exact Rq.
Qed.
End Calls.

Lemma wf_unc st : wf_circ st -> wf_circ (unconditioned st).
Proof.
  intros (A & B & C). split; [exact A|]. split; [exact B|]. intros o Ho. cbn in Ho. apply in_map_iff in Ho. destruct Ho as (o' & <- & Ho').
  destruct (C o' Ho') as (qs & H). now exists qs.
Qed.
Lemma unc_ops st Q : (forall o, In o (sc_ops Ccring st) -> Q (so_kind Ccring o) : Prop) -> forall o, In o (sc_ops Ccring (unconditioned st)) -> Q (so_kind Ccring o).
Proof. intros H o Ho. cbn in Ho. apply in_map_iff in Ho. destruct Ho as (o2 & <- & Ho2). exact (H o2 Ho2). Qed.
Lemma unc_unconditional st : unconditional (unconditioned st).
Proof. intros o Ho. cbn in Ho. apply in_map_iff in Ho. now destruct Ho as (o' & <- & _). Qed.
Lemma unc_same st : unconditional st -> unconditioned st = st.
Proof.
  intros H. destruct st as [qs os]. unfold unconditioned. cbn [sc_qubits sc_ops]. f_equal. unfold unconditional in H. cbn [sc_ops] in H. rewrite <- (map_id os) at 2.
  apply map_ext_in. intros [k q c] Ho. specialize (H _ Ho). cbn [so_cond] in H. rewrite H. reflexivity.
Qed.

Theorem call_applied ptrue peqb extra p (v : world R) t x d xd sd ids ba (rnd : nat -> R) :
  executes R ptrue peqb (own_ok R) p (start R (library_classes ++ extra)%list) ->
  visits R ptrue peqb p (start R (library_classes ++ extra)%list) v -> small R v ->
  nth_error (w_circ v) t = Some x -> (forall o y, In o (c_ops x) -> nth_error (w_op v) o = Some y -> ready v x o y) -> circuit_qubits x <> [] ->
  nth_error (w_circ v) d = Some xd -> recording R v = Some d -> seen v d = Some sd -> List.length (circuit_qubits xd) <= 30 ->
  NoDup ids -> (forall q, In q ids -> In (IQubit q) (circuit_qubits xd)) ->
  snd (do_call ptrue peqb (CCall R t (map IQubit ids) ba) v) = Ok tt ->
  exists st, seen v t = Some st /\ circuit_qubits x = map IQubit (sc_qubits Ccring st) /\
    (measurement_free st -> applied rnd v (fst (do_call ptrue peqb (CCall R t (map IQubit ids) ba) v)) d (unconditioned st) ids).
Proof.
  intros He Hv Hsm Ex Hr Hne Exd Hrec Hsd Hn Nd Hin Hok.
  destruct (link_seen ptrue peqb extra p v He Hv Hsm t x Ex Hr Hne) as (st & Hs & Hq & _ & Hwf & Hu).
  pose proof (link_reaches ptrue peqb extra p v He Hv) as Rv.
  destruct (reached_replay R ptrue peqb v t _ ba x Rv Hsm Ex Hok) as (d' & zs & kbs & _ & _ & Hl & _ & Ho & Ha & _ & F).
  exists st. split; [exact Hs|]. split; [exact Hq|]. intros Hm.
  destruct (seen_qubits ptrue peqb v t x st (link_reaches_q ptrue peqb extra p v He Hv) Hsm Ex Hs) as (_ & Hops).
  assert (Hok' : own_ok R v (CCall R t (map IQubit ids) ba)) by (unfold own_ok; cbn; tauto).
  refine (copied_applied ptrue peqb extra p v He Hv Hsm _ Hok' rnd d xd sd (unconditioned st) ids zs Exd Hrec Hsd Hn Nd Hin _ (wf_unc st Hwf)
    (unc_ops st unitary_kind Hu) (unc_ops st (fun k => is_measure k = false) Hm) (unc_unconditional st) Ho Ha _).
  - cbn. rewrite <- (map_length IQubit ids), Hl, Hq. apply map_length.
  - cbn [unconditioned sc_ops].
    assert (Hy : forall o y, In o (c_ops x) -> nth_error (w_op v) o = Some y -> o_qubits y <> None).
    { intros o y Hi Ey. destruct (Hr o y Hi Ey) as [_ (qs & E & _) _ _ _]. congruence. }
    assert (Hm' : forall s, In s (sc_ops Ccring st) -> is_measure (so_kind Ccring s) = false) by exact Hm.
    clear -F Hops Hy Hm' Hq Hv. revert Hops Hm'. generalize (sc_ops Ccring st).
    induction F as [|o z os zs (y & k & Ey & Ek & Rp) F IH]; intros ops Hops Hm; cbn in Hops.
    + injection Hops as <-. constructor.
    + destruct (seen_op v o) as [s|] eqn:Es; [|discriminate]. destruct (all_some (seen_op v) os) as [ops'|] eqn:Eos; [|discriminate].
      injection Hops as <-. cbn [map]. constructor.
      * apply (plain_copied ptrue peqb extra p v Hv (unconditioned st) s o y k (map IQubit ids) (circuit_qubits x) kbs z ids Es);
          auto; [now apply Hm; left|apply (Hy o); auto; now left].
      * apply IH; auto; intros; [apply (Hy o0); auto; now right|apply Hm; now right].
Qed.

(** ** Circuits with parameters *)
Lemma renamed_nodup (from ids qs qs' : list nat) : NoDup ids -> Forall2 (fun q q' => exists j, nth_error from j = Some q /\ nth_error ids j = Some q') qs qs' ->
  NoDup qs -> NoDup qs'.
Proof.
  intros Nd F. induction F as [|q q' qs qs' (j & H1 & H2) F IH]; intros N; constructor; inversion N as [|? ? Hni N']; subst; [|auto].
  intros Hi. apply Hni. clear -Nd H1 H2 F Hi. induction F as [|a a' qs qs' (i & A1 & A2) F IH]; [destruct Hi|].
  destruct Hi as [->|Hi]; [left|right; auto]. assert (i = j) by (eapply (proj1 (NoDup_nth_error _) Nd); [apply nth_error_Some; congruence|congruence]). congruence.
Qed.
Lemma given_numbers ptrue (v : world R) vs ps l l' : Forall2 (given_value R ptrue v vs ps) l l' -> Forall (number R) l' /\ List.length l' = List.length l.
Proof.
  intros F. induction F as [|a b l l' H F (IH1 & IH2)]; [now split; constructor|]. split; [|cbn; congruence]. constructor; [|exact IH1].
  destruct a as [r|n]; cbn in H; [eexists; exact H|]. destruct H as [(i & r & _ & _ & _ & ->)|(_ & s & r & _ & _ & ->)]; now eexists.
Qed.

Section Filled.
Variable ptrue : R -> bool.
Variable peqb : R -> R -> bool.
Variable extra : list cls.
Variables p p' : prog R.
Variables v v' : world R.
Hypothesis Hvi : visits R ptrue peqb p (start R (library_classes ++ extra)%list) v.
Hypothesis Hex' : executes R ptrue peqb (own_ok R) p' (start R (library_classes ++ extra)%list).
Hypothesis Hvi' : visits R ptrue peqb p' (start R (library_classes ++ extra)%list) v'.
Hypothesis Hsm' : small R v'.
Variables (d : nat) (xd xd' : circ) (qsd qst ids : list nat) (vs : list nat) (ps : list R).
Hypothesis Exd : nth_error (w_circ v) d = Some xd.
Hypothesis Hrec : recording R v = Some d.
Hypothesis Hnv : ~ takes_variables xd.
Hypothesis Exd' : nth_error (w_circ v') d = Some xd'.
Hypothesis Hqd : circuit_qubits xd' = map IQubit qsd.
Hypothesis Nd : NoDup ids.
Let S := given_value R ptrue v vs ps.

Lemma filled_copied kbs o y k z n' : nth_error (w_op v) o = Some y -> nth_error (w_cls v) (o_cls y) = Some k -> fillable v y ->
  repeats R S v (map IQubit qst) (map IQubit ids) kbs (k_kind k) y z ->
  nth_error (w_op v') n' = Some z -> In n' (c_ops xd') ->
  exists s, meant S v o s /\ (forall st, sc_qubits Ccring st = qst -> wf_op st s /\ copied st ids s z) /\
    unitary_kind (so_kind Ccring s) /\ is_measure (so_kind Ccring s) = false /\ so_cond Ccring s = [].
Proof.
  intros Ey Ek [F1 F2 (ql & Eql & Ndq & F3) F4] [Rc (l & El & Rq) Rp Rb Rd] Ez Hi.
  specialize (F2 k Ek). specialize (F3 k Ek). specialize (F4 k Ek). unfold oqubits in Rq. rewrite Eql in Rq.
  destruct (nth_error library (o_cls y)) as [[x f]|] eqn:Elib; [|apply nth_error_None in Elib; lia].
  destruct (class_kind ptrue peqb extra p v Hvi y k Ek x f Elib) as (Nm & Kd & Hpar). specialize (Hpar o Ey).
  assert (Hql : exists qn, ql = map IQubit qn /\ incl qn qst).
  { clear -Rq. induction Rq as [|q q' ql l (j & H1 & _) F (qn & -> & Hin)]; [exists []; split; [reflexivity|intros ? []]|].
    rewrite nth_error_map in H1. destruct (nth_error qst j) as [b|] eqn:Eb; [|discriminate]. injection H1 as <-. exists (b :: qn). split; [reflexivity|].
    intros c [<-|Hc]; [eapply nth_error_In; eauto|auto]. }
  destruct Hql as (qn & -> & Hqn).
  destruct (renamed_ids (mkScirc Ccring qst []) ids qn l Rq) as (qn' & -> & G). cbn [sc_qubits] in G.
  assert (Nq : NoDup qn) by exact (NoDup_map_inv _ _ Ndq).
  pose proof (renamed_nodup _ _ _ _ Nd G Nq) as Nq'.
  assert (Lq : List.length qn' = List.length qn) by (clear -G; induction G; cbn; congruence).
  assert (Hp : match k_kind k with KParam => Forall2 S (o_params y) (o_params z) | _ => o_params z = o_params y end).
  { unfold same_params in Rp. destruct (k_kind k) eqn:Kk; cbn in Hpar.
    - now rewrite Hpar.
    - rewrite Hrec in Rp. destruct Rp as (x0 & E0 & _ & B). rewrite Exd in E0. injection E0 as <-. now apply B.
    - now rewrite Hpar.
    - exact Rp.
    - now destruct F2. }
  assert (Rdy : ready v' xd' n' z).
  { assert (Ecls : forall k', nth_error (w_cls v') (o_cls z) = Some k' -> k_kind k' = k_kind k).
    { intros k' Ek'. rewrite <- Rc in Elib. destruct (class_kind ptrue peqb extra p' v' Hvi' z k' Ek' x f Elib) as (_ & K' & _). congruence. }
    constructor.
    - now rewrite Rc.
    - exists (map IQubit qn'). split; [exact El|]. intros k' Ek'. split.
      + intros _. apply FinFun.Injective_map_NoDup; [|exact Nq']. now intros a b [= ->].
      + intros Hc. rewrite map_length, Lq. rewrite <- (map_length IQubit qn). apply F3. unfold controlled in *. now rewrite <- (Ecls k' Ek').
    - intros k' Ek' Hh. rewrite (Ecls k' Ek') in Hh. destruct (F4 Hh) as (Fn & Fc).
      unfold controlled in *. rewrite (Ecls k' Ek'). destruct (k_kind k) eqn:Kk; try discriminate Hh.
      + destruct (given_numbers _ _ _ _ _ _ Hp) as (A & B). split; [|auto]. intros H. apply Fn. destruct (o_params y); [reflexivity|]. rewrite H in B. discriminate B.
      + rewrite Hp. split; [exact Fn|]. auto.
    - intros lb Hb. assert (o_bits z = None). { destruct (k_kind k); try exact Rb. now destruct F2. } congruence.
    - intros lb Hb. congruence. }
  destruct (link_op ptrue peqb extra p' v' Hex' Hvi' Hsm' d xd' Exd' qsd n' z Hqd Hi Ez Rdy) as (s & Es & Sh & Hw).
  unfold seen_op in Es. rewrite Ez in Es. destruct (seen_kind n' z) as [g|] eqn:Eg; [|discriminate]. rewrite El in Es. cbn [opt_all] in Es.
  rewrite ids_of_items in Es. cbn [option_map] in Es. rewrite Rd in Es. cbn [opt_all] in Es. injection Es as <-.
  assert (Hm : is_measure g = false).
  { unfold seen_kind in Eg. rewrite Rc, Elib in Eg. rewrite Kd in F2.
    assert (E2 : match all_some number_of (o_params z) with Some ps => option_map gate_kind (f ps) | None => None end = Some g) by (destruct (k_kind x); auto; now destruct F2).
    destruct (all_some number_of (o_params z)); [|discriminate]. destruct (f l) as [h|]; [|discriminate]. injection E2 as <-. destruct h as [h| | | |]; try reflexivity; destruct h; reflexivity. }
  destruct (Hw (mkScirc Ccring qsd []) eq_refl) as ((qs2 & W1 & _ & _ & W2 & W3) & W4). cbn [so_qubits so_kind] in W1, W2, W3, W4. injection W1 as <-.
  exists (mkSop Ccring g (Some qn) []). split; [|split; [|split; [exact W4|split; [exact Hm|reflexivity]]]].
  - destruct Sh as (y2 & k2 & qs2 & A1 & A2 & _ & _ & _ & A3). rewrite Ez in A1. injection A1 as <-. cbn [so_kind] in A3.
    assert (B : exists ps gt, o_params z = map PNum ps /\ stands (k_name k2) ps gt /\ g = gate_kind gt) by (destruct g; try exact A3; discriminate Hm).
    destruct B as (ps2 & gt & B1 & B2 & B3). rewrite <- Rc in Elib. destruct (class_kind ptrue peqb extra p' v' Hvi' z k2 A2 x f Elib) as (Nm2 & _ & _).
    exists y, k, qn, ps2, gt. rewrite Nm2, <- Nm in B2. repeat (split; [assumption || reflexivity|]).
    rewrite <- B1. destruct (k_kind k); try (now symmetry); exact Hp.
  - intros st Hst. split.
    + exists qn. cbn [so_qubits so_kind]. rewrite Hst. split; [reflexivity|]. split; [exact Hqn|]. split; [auto|]. split; [|exact W3]. intros m Hm'. rewrite <- Lq. auto.
    + split; [|split; [exact Rd|]].
      * intros n. cbn [so_kind]. eapply seen_kind_gate; eauto.
      * exists qn, (map IQubit qn'). cbn [so_qubits]. rewrite Hst. auto.
Qed.
End Filled.

Theorem parametric_applied ptrue peqb extra p (v : world R) t x d xd sd ps ids ba (rnd : nat -> R) :
  executes R ptrue peqb (own_ok R) p (start R (library_classes ++ extra)%list) ->
  visits R ptrue peqb p (start R (library_classes ++ extra)%list) v -> small R v ->
  nth_error (w_circ v) t = Some x -> (forall o y, In o (c_ops x) -> nth_error (w_op v) o = Some y -> fillable v y) -> circuit_qubits x <> [] ->
  nth_error (w_circ v) d = Some xd -> recording R v = Some d -> ~ takes_variables xd -> seen v d = Some sd -> List.length (circuit_qubits xd) <= 30 ->
  NoDup ids -> (forall q, In q ids -> In (IQubit q) (circuit_qubits xd)) ->
  snd (do_call ptrue peqb (CCallPar t ps (map IQubit ids) ba) v) = Ok tt ->
  exists st, circuit_qubits x = map IQubit (sc_qubits Ccring st) /\
    Forall2 (meant (given_value R ptrue v (c_vars x) ps) v) (c_ops x) (sc_ops Ccring st) /\
    applied rnd v (fst (do_call ptrue peqb (CCallPar t ps (map IQubit ids) ba) v)) d st ids.
Proof.
  intros He Hv Hsm Ex Hf Hne Exd Hrec Hnv Hsd Hn Nd Hin Hok.
  pose proof (link_reaches ptrue peqb extra p v He Hv) as Rv.
  destruct (reached_parametric R ptrue peqb v t ps _ ba x Rv Hsm Ex Hok) as (d' & zs & kbs & _ & _ & _ & Hl & _ & Ho & Ha & _ & F).
  set (a := CCallPar t ps (map IQubit ids) ba) in *. set (v' := fst (do_call ptrue peqb a v)) in *.
  assert (Hok' : own_ok R v a) by (unfold own_ok; cbn; tauto).
  destruct (after_visits ptrue peqb extra p v He Hv a Hok') as (p' & He' & Hv').
  pose proof (after_small ptrue peqb v Hsm a _ Ha) as Hsm'. fold v' in Hv', Hsm'.
  destruct (link_nodup ptrue peqb extra p v He Hv Hsm t x Ex) as (Ndt & Fqt). destruct (read_qubits _ Fqt) as (qst & _ & Hqt).
  destruct (link_nodup ptrue peqb extra p v He Hv Hsm d xd Exd) as (_ & Fqd). destruct (read_qubits _ Fqd) as (qsd & _ & Hqd).
  destruct (oa_circ _ _ _ _ Ha d xd Exd) as (xd' & Exd' & H & _). destruct (H Hrec) as (vq & vb & Hx). clear H.
  assert (Hqd' : circuit_qubits xd' = map IQubit qsd) by (rewrite Hx; exact Hqd).
  assert (Hz : forall z, In z zs -> exists n', nth_error (w_op v') n' = Some z /\ In n' (c_ops xd')).
  { intros z Hi. destruct (In_nth_error _ _ Hi) as (i & Ei). exists (List.length (w_op v) + i). rewrite Ho, nth_error_app2 by lia.
    replace (_ + i - _) with i by lia. split; [exact Ei|]. rewrite Hx. cbn [c_ops]. apply in_or_app. right. apply in_seq.
    assert (i < List.length zs) by (apply nth_error_Some; congruence). lia. }
  set (S := given_value R ptrue v (c_vars x) ps) in *. rewrite Hqt in F.
  assert (G : exists ops, Forall2 (meant S v) (c_ops x) ops /\ (forall st, sc_qubits Ccring st = qst -> Forall2 (copied st ids) ops zs) /\
    forall s, In s ops -> (forall st, sc_qubits Ccring st = qst -> wf_op st s) /\ unitary_kind (so_kind Ccring s) /\ is_measure (so_kind Ccring s) = false /\ so_cond Ccring s = []).
  { clear -F Hf Hz He' Hv' Hsm' Hv Exd Hrec Hnv Exd' Hqd' Nd. induction F as [|o z os zs (y & k & Ey & Ek & Rp) F IH].
    - exists []. split; [constructor|]. split; [constructor|]. intros ? [].
    - destruct IH as (ops & I1 & I2 & I3); [intros; apply (Hf o0); auto; now right|intros; apply Hz; now right|].
      destruct (Hz z (or_introl eq_refl)) as (n' & Z1 & Z2).
      destruct (filled_copied ptrue peqb extra p p' v v' Hv He' Hv' Hsm' d xd xd' qsd qst ids (c_vars x) ps Exd Hrec Hnv Exd' Hqd' Nd kbs o y k z n' Ey Ek
        (Hf o y (or_introl eq_refl) Ey) Rp Z1 Z2) as (s & M1 & M2 & M3 & M4 & M5).
      exists (s :: ops). split; [now constructor|]. split.
      + intros st Hst. constructor; [now apply M2|now apply I2].
      + intros s' [<-|Hs']; [|now apply I3]. split; [intros st Hst; now apply M2|]. auto. }
  destruct G as (ops & G1 & G2 & G3). exists (mkScirc Ccring qst ops). split; [exact Hqt|]. split; [exact G1|].
  refine (copied_applied ptrue peqb extra p v He Hv Hsm a Hok' rnd d xd sd (mkScirc Ccring qst ops) ids zs Exd Hrec Hsd Hn Nd Hin _ _ _ _ _ Ho Ha (G2 (mkScirc Ccring qst ops) eq_refl)).
  - cbn. rewrite <- (map_length IQubit ids), Hl, Hqt. apply map_length.
  - split; [|split].
    + cbn. rewrite Hqt in Ndt. exact (NoDup_map_inv _ _ Ndt).
    + cbn. intros ->. now rewrite Hqt in Hne.
    + intros s Hs. now apply G3.
  - intros s Hs. now apply G3.
  - intros s Hs. now apply G3.
  - intros s Hs. now apply G3.
Qed.

(** What simulating inside a program does: to bits, states and measurements, the first time and again. *)
From Coq Require Import List NArith ZArith Arith String Bool Lia Reals.
From Verif Require Import Py CRing Cplx KernelSpec SimModel SimSpec SimProofs SimProofs2 SimProofs4 SimReal GateModel StateModel StateSpec StateProofs
  RegisterModel WorldModel WorldSpec WorldSpec4 WorldInv WorldInv7 WorldCheck LinkModel LinkSpec LinkProofs SessionModel SessionSpec SessionProofs SessionProofs2.
Import ListNotations.
Local Open Scope nat_scope.
Local Open Scope string_scope.

(** ** The operations the simulator sees *)
Lemma stands_no_measurement ps g : ~ stands "Measurement" ps g.
Proof.
  intros H. inversion H as [n ps' g1 H1|n ps' g1 H1 En| | |]; subst. inversion H1.
Qed.

Lemma shown_op w o s : shown w o s -> exists y k qs, nth_error (w_op w) o = Some y /\ nth_error (w_cls w) (o_cls y) = Some k /\
  o_qubits y = Some (map IQubit qs) /\ so_qubits Ccring s = Some qs /\
  match o_cond y with Some l => l = map IBit (so_cond Ccring s) | None => so_cond Ccring s = [] end /\
  ((exists bs, so_kind Ccring s = KMeasure Ccring o bs /\ k_name k = "Measurement" /\ o_bits y = option_map (map IBit) bs) \/
   (is_measure (so_kind Ccring s) = false /\ k_name k <> "Measurement")).
Proof.
  intros (y & k & qs & E1 & E2 & E3 & E4 & E5 & E6). exists y, k, qs. repeat split; auto.
  destruct (so_kind Ccring s) as [mid bs| | | | |] eqn:Ek; [left; destruct E6 as (A & -> & B); eauto|..];
    right; (split; [reflexivity|]); destruct E6 as (ps & gt & _ & H & _); intros E; rewrite E in H; now apply stands_no_measurement in H.
Qed.

Lemma shown_stores w o s b : shown w o s -> (stores w o b <-> In b (stored_bits s)).
Proof.
  intros H. destruct (shown_op _ _ _ H) as (y & k & qs & E1 & E2 & E3 & E4 & _ & E6). split.
  - intros (y' & k' & qs' & bs & i & F1 & F2 & F3 & F4 & F5 & F6 & F7). rewrite E1 in F1. injection F1 as <-. rewrite E2 in F2. injection F2 as <-.
    rewrite E3 in F4. injection F4 as <-. destruct E6 as [(bs' & Ek & _ & Eb)|[_ Hn]]; [|congruence]. rewrite Eb in F5.
    destruct bs' as [bs'|]; [|discriminate]. cbn in F5. injection F5 as <-. unfold stored_bits. rewrite Ek, E4. rewrite map_length in F6.
    rewrite nth_error_map in F7. destruct (nth_error bs' i) as [b'|] eqn:Ei; [|discriminate]. cbn in F7. injection F7 as ->.
    apply (nth_error_In _ i). rewrite <- Ei. clear -F6. revert i F6 bs'. induction qs as [|q qs IH]; intros i F6 bs'; cbn in F6; [lia|].
    destruct bs'; [now destruct i|]. destruct i; [reflexivity|]. cbn. apply IH. lia.
  - unfold stored_bits. intros Hb. destruct E6 as [(bs' & Ek & Hn & Eb)|[Hm _]]; [|destruct (so_kind Ccring s); [discriminate|..]; destruct Hb].
    rewrite Ek, E4 in Hb. destruct bs' as [bs'|]; [|destruct Hb]. destruct (In_nth_error _ _ Hb) as (i & Ei).
    assert (Hi : i < List.length qs).
    { assert (i < List.length (firstn (List.length qs) bs')) by (apply nth_error_Some; congruence). rewrite firstn_length in H0. lia. }
    exists y, k, (map IQubit qs), (map IBit bs'), i. rewrite map_length. repeat split; auto. rewrite nth_error_map.
    assert (En : nth_error bs' i = Some b).
    { rewrite <- Ei. clear -Hi. revert i Hi bs'. induction qs as [|q qs IH]; intros i Hi bs'; cbn in Hi; [lia|].
      destruct bs'; [now destruct i|]. destruct i; [reflexivity|]. cbn. apply IH. lia. }
    now rewrite En.
Qed.

Lemma shown_always w o s : shown w o s -> (always w o <-> so_cond Ccring s = []).
Proof.
  intros H. destruct (shown_op _ _ _ H) as (y & k & qs & E1 & _ & _ & _ & E5 & _). unfold always. split.
  - intros A. destruct (o_cond y) as [l|] eqn:Ec; [|exact E5]. rewrite (A y l E1 Ec) in E5. symmetry in E5. now apply map_eq_nil in E5.
  - intros Es y' l E' Ec. rewrite E1 in E'. injection E' as <-. rewrite Ec, Es in E5. exact E5.
Qed.

Lemma shown_asks w o s b : shown w o s -> (asks w o b <-> In b (so_cond Ccring s)).
Proof.
  intros H. destruct (shown_op _ _ _ H) as (y & k & qs & E1 & _ & _ & _ & E5 & _). unfold asks. split.
  - intros (y' & l & E' & Ec & Hb). rewrite E1 in E'. injection E' as <-. rewrite Ec in E5. subst l. apply in_map_iff in Hb.
    destruct Hb as (b' & [= ->] & Hb). exact Hb.
  - intros Hb. destruct (o_cond y) as [l|] eqn:Ec; [|rewrite E5 in Hb; destruct Hb]. exists y, l. subst l. repeat split; auto. now apply in_map.
Qed.

Lemma shown_measures w o s : shown w o s -> (measures w o <-> is_measure (so_kind Ccring s) = true).
Proof.
  intros H. destruct (shown_op _ _ _ H) as (y & k & qs & E1 & E2 & _ & _ & _ & E6). unfold measures. split.
  - intros (y' & k' & F1 & F2 & F3). rewrite E1 in F1. injection F1 as <-. rewrite E2 in F2. injection F2 as <-.
    destruct E6 as [(bs & -> & _)|[_ Hn]]; [reflexivity|congruence].
  - intros Hm. destruct E6 as [(bs & _ & Hn & _)|[Hn _]]; [eauto|congruence].
Qed.

Lemma F2_left {A B} (Q : A -> B -> Prop) l l' : Forall2 Q l l' -> forall a, In a l -> exists b, In b l' /\ Q a b.
Proof. induction 1 as [|a b l l' H _ IH]; intros x []; [subst; exists b; split; [now left|exact H]|]. destruct (IH x) as (b' & ? & ?); auto. exists b'. split; [now right|auto]. Qed.
Lemma F2_right {A B} (Q : A -> B -> Prop) l l' : Forall2 Q l l' -> forall b, In b l' -> exists a, In a l /\ Q a b.
Proof. induction 1 as [|a b l l' H _ IH]; intros x []; [subst; exists a; split; [now left|exact H]|]. destruct (IH x) as (b' & ? & ?); auto. exists b'. split; [now right|auto]. Qed.

Lemma settled_conditions w ops sops : Forall2 (shown w) ops sops -> forall D,
  (forall before o after b, ops = (before ++ o :: after)%list -> asks w o b ->
     In b D \/ exists o', In o' before /\ always w o' /\ stores w o' b) -> conditions_set D sops.
Proof.
  induction 1 as [|o s ops sops Hs _ IH]; intros D H; [exact I|]. split.
  - intros b Hb. destruct (H [] o ops b eq_refl) as [?|(o' & [] & _)]; [now apply (shown_asks _ _ _ b Hs)|assumption].
  - apply IH. intros before o1 after b -> Ha. destruct (H (o :: before) o1 after b eq_refl Ha) as [Hd|(o' & Ho & Hal & Hst)].
    + left. destruct (so_cond Ccring s); [apply in_or_app; now right|exact Hd].
    + destruct Ho as [->|Ho]; [|right; eauto]. left. apply (shown_always _ _ _ Hs) in Hal. rewrite Hal. apply in_or_app. left.
      now apply (shown_stores _ _ _ b Hs).
Qed.

(** ** The heap *)
Lemma qubits_same c (w : world R) f : same_but_bits c w (put_bits f (fst (qubits c w))).
Proof.
  unfold same_but_bits. unfold put_bits. cbn. rewrite put_from_labels.
  unfold qubits, mbind, get_circ, the, read, put_circ, ret. destruct (nth_error (w_circ w) c) as [x|] eqn:Ex.
  2:{ cbn. repeat split; auto. intros i x E. exists x. repeat split; auto. }
  cbn. destruct (s_cache (c_q x)) eqn:Es.
  { cbn. repeat split; auto. intros i x' E. exists x'. repeat split; auto. }
  unfold WorldModel.lift. destruct (concat_regs (w_bit w) (c_q x)) as [r|e]; cbn.
  2:{ repeat split; auto. intros i x' E. exists x'. repeat split; auto. }
  rewrite set_nth_length. repeat split; auto. intros i x' E. destruct (Nat.eq_dec i c) as [->|Hi].
  - rewrite Ex in E. injection E as <-. eexists. split; [eapply set_nth_same; eauto|]. repeat split; auto. congruence.
  - exists x'. rewrite set_nth_other by congruence. repeat split; auto.
Qed.

Lemma qubits_cached c (w : world R) f r : snd (qubits c w) = Ok r ->
  qubits c (put_bits f (fst (qubits c w))) = (put_bits f (fst (qubits c w)), Ok r).
Proof.
  unfold qubits at 1 2 3 4, mbind, get_circ, the, read, put_circ, ret. destruct (nth_error (w_circ w) c) as [x|] eqn:Ex; [|discriminate].
  cbn. destruct (s_cache (c_q x)) eqn:Es.
  - cbn. rewrite Ex. cbn. rewrite Es. now intros [= <-].
  - unfold WorldModel.lift. destruct (concat_regs (w_bit w) (c_q x)) as [r'|e]; cbn; [|discriminate]. intros [= <-].
    rewrite (set_nth_same _ _ _ _ Ex). reflexivity.
Qed.

Lemma seen_again c (w : world R) f sc : seen w c = Some sc -> seen (put_bits f (fst (qubits c w))) c = Some sc.
Proof.
  intros H. destruct (seen_qubits _ _ _ H) as (x & r & Ex & Eq). destruct (qubits_same c w f) as (_ & Eo & _ & _ & _ & _ & _ & _ & _ & Hc).
  destruct (Hc c x Ex) as (x' & Ex' & (Hops & _) & _). unfold seen in H |- *. rewrite Ex, Eq in H. rewrite Ex', (qubits_cached c w f r Eq). cbn [snd].
  destruct (items (core r)) as [l|]; [|discriminate]. destruct (all_some qubit_id l) as [qs|]; [|discriminate]. rewrite Hops.
  assert (E : forall o, seen_op (put_bits f (fst (qubits c w))) o = seen_op w o) by (intros o; unfold seen_op; now rewrite Eo).
  assert (E' : forall l, all_some (seen_op (put_bits f (fst (qubits c w)))) l = all_some (seen_op w) l).
  { intros l0. induction l0 as [|o l0 IH]; cbn; [reflexivity|]. now rewrite E, IH. }
  now rewrite E'.
Qed.

(** ** Little-endian simulation refuses measurements *)
Section Little.
Variable rnd : nat -> R.
Lemma run_little c ops : (SimModel.num_qubits Ccring c <= 30)%N -> (forall o, In o ops -> wf_op c o) ->
  (exists o, In o ops /\ is_measure (so_kind Ccring o) = true /\ so_cond Ccring o = []) ->
  forall (m : SimModel.mem Ccring) v, run_pure Ccring R Cgtb Cis0 Cinvsqrt rnd c true ops m v = (m, Err CircuitError).
Proof.
  intros Hn. induction ops as [|o ops IH]; intros Hw (x & Hx & Hm & Hc) m v; [destruct Hx|].
  assert (Hwo : wf_op c o) by (apply Hw; now left).
  destruct (placed_wf Ccring c o Hwo) as (ts & E & Hp & Hl & Hnd & Ha). cbn [SimModel.run_pure]. rewrite E.
  destruct (is_blocked Ccring m o) eqn:Eb.
  - unfold apply_instruction. rewrite Eb. apply IH; [intros y Hy; apply Hw; now right|]. destruct Hx as [->|Hx]; [|eauto].
    unfold is_blocked in Eb. rewrite Hc in Eb. discriminate.
  - destruct (is_measure (so_kind Ccring o)) eqn:Em.
    + unfold apply_instruction. rewrite Eb. destruct (so_kind Ccring o); try discriminate. reflexivity.
    + specialize (Hnd eq_refl). assert (Hs : supported (so_kind Ccring o)) by (destruct Hwo as (? & _ & _ & _ & _ & ?); assumption).
      destruct (apply_gate Ccring R Cgtb Cis0 Cinvsqrt rnd (SimModel.num_qubits Ccring c) true false o ts m v Hn Eb Em Hs) as (v' & Ev & _); auto.
      { split; auto. }
      rewrite Ev. apply IH; [intros y Hy; apply Hw; now right|]. destruct Hx as [->|Hx]; [congruence|eauto].
Qed.
End Little.

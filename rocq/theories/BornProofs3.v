(** A measurement without measured state has no measured qubits, throughout a program. *)
From Coq Require Import List NArith ZArith Arith String Bool Lia Reals.
From Verif Require Import Py CRing Cplx KernelSpec SimModel SimSpec SimProofs SimProofs2 SimProofs4 SimReal GateModel StateModel
  RegisterModel WorldModel WorldSpec LinkModel SessionModel SessionSpec SessionProofs.
Import ListNotations.
Local Open Scope nat_scope.

Section S.
Variable K : cring.
Variable U : Type.
Variable gtb : K -> U -> bool.
Variable is0 : K -> bool.
Variable invsqrt : K -> K.
Variable rnd : nat -> U.
Notation apply_instruction := (apply_instruction K U gtb is0 invsqrt rnd).
Notation run_pure := (run_pure K U gtb is0 invsqrt rnd).
Notation run_mixed := (run_mixed K U gtb is0 invsqrt rnd).
Notation simulate := (simulate K U gtb is0 invsqrt rnd).
Notation measure_loop := (measure_loop K U gtb is0 invsqrt rnd).

Definition fresh_empty (m : SimModel.mem K) : Prop := forall mid, m_state K m mid = None -> m_idx K m mid = [].

Lemma loop_fresh n mid bits ts : forall idx (m : SimModel.mem K) v, fresh_empty m -> m_state K m mid <> None ->
  fresh_empty (fst (measure_loop n mid bits idx ts m v)).
Proof.
  induction ts as [|t ts IH]; intros idx m v H Hs; cbn [SimModel.measure_loop]; [exact H|].
  destruct (sample_qubit _ _ _ _ _ _ _ _ _ _ _) as [[[k w] v1]|e]; [|exact H]. apply IH.
  - intros i Hi. assert (Hm : m_state K m i = None) by (destruct bits as [bs|]; [destruct (nth_error bs idx)|]; destruct w; exact Hi).
    assert (Hne : i <> mid) by congruence. apply Nat.eqb_neq in Hne.
    destruct bits as [bs|]; [destruct (nth_error bs idx)|]; destruct w; cbn; rewrite Hne; now apply H.
  - destruct bits as [bs|]; [destruct (nth_error bs idx)|]; destruct w; exact Hs.
Qed.

Lemma apply_fresh n le conj o ts (m : SimModel.mem K) v : fresh_empty m -> fresh_empty (fst (apply_instruction n le conj o ts m v)).
Proof.
  intros H. destruct (is_measure (so_kind K o)) eqn:Em.
  - unfold SimModel.apply_instruction. destruct (is_blocked K m o); [exact H|].
    destruct (so_kind K o) as [mid bits| | | | |]; try discriminate. destruct le; [exact H|]. unfold measure. apply loop_fresh.
    + intros i Hi. cbn in Hi. destruct (Nat.eqb i mid); [discriminate|]. cbn. now apply H.
    + cbn. now rewrite Nat.eqb_refl.
  - now rewrite apply_gate_mem.
Qed.

Lemma run_fresh c le ops : forall (m : SimModel.mem K) v, fresh_empty m -> fresh_empty (fst (run_pure c le ops m v)).
Proof.
  induction ops as [|o ops IH]; intros m v H; cbn [SimModel.run_pure]; [exact H|].
  destruct (target_indices K c o) as [ts|e]; [|exact H].
  pose proof (apply_fresh (SimModel.num_qubits K c) le false o ts m v H) as A.
  destruct (apply_instruction _ _ _ o ts m v) as [m1 [v1|e]]; [now apply IH|exact A].
Qed.

Lemma mixed_fresh c ops : forall (m : SimModel.mem K) v, fresh_empty m -> fresh_empty (fst (run_mixed c ops m v)).
Proof.
  induction ops as [|o ops IH]; intros m v H; cbn [SimModel.run_mixed]; [exact H|].
  destruct (is_measure (so_kind K o)) eqn:Em; [destruct (so_kind K o) as [mid bits| | | | |]; try discriminate; intros i Hi; cbn in Hi; destruct (Nat.eqb i mid); [discriminate|]; now apply H|].
  assert (A : forall X Y : SimModel.mem K * res (N -> K), X = Y -> fresh_empty (fst Y) -> fresh_empty (fst X)) by (intros; now subst).
  eapply A; [destruct (so_kind K o); try discriminate; reflexivity|].
  destruct (target_indices K c o) as [ts|e]; [|exact H].
  pose proof (apply_gate_mem K U gtb is0 invsqrt rnd (2 * SimModel.num_qubits K c) false false o ts m v Em) as E1.
  destruct (apply_instruction _ _ _ o ts m v) as [m1 [v1|e]]; cbn in E1; subst m1; [|exact H].
  pose proof (apply_gate_mem K U gtb is0 invsqrt rnd (2 * SimModel.num_qubits K c) false true o (map (fun t => t + SimModel.num_qubits K c)%N ts) m v1 Em) as E2.
  destruct (apply_instruction _ _ _ o _ m v1) as [m2 [v2|e]]; cbn in E2; subst m2; [|exact H]. now apply IH.
Qed.

Lemma simulate_fresh c mixed le (m : SimModel.mem K) : fresh_empty m -> fresh_empty (fst (simulate c mixed le m)).
Proof.
  intros H. unfold SimModel.simulate. destruct (sc_qubits K c); [exact H|]. destruct mixed.
  - pose proof (mixed_fresh c (sc_ops K c) m (zero_state K) H) as A. destruct (run_mixed c (sc_ops K c) m (zero_state K)) as [m' r]. exact A.
  - pose proof (run_fresh c le (sc_ops K c) m (zero_state K) H) as A. destruct (run_pure c le (sc_ops K c) m (zero_state K)) as [m' r]. exact A.
Qed.
End S.

Definition clean (s : session) : Prop := forall o, s_mst s o = None -> s_idx s o = [].

Lemma sim_clean c mixed le rnd s : clean s -> clean (fst (sim c mixed le rnd s)).
Proof.
  intros H. unfold sim. destruct (seen (s_w s) c) as [sc|]; [|exact H].
  pose proof (simulate_fresh Ccring R Cgtb Cis0 Cinvsqrt rnd sc mixed le (found s) H) as A.
  unfold simulate_set, simulate_C. destruct (simulate Ccring R Cgtb Cis0 Cinvsqrt rnd sc mixed le (found s)) as [m r]. cbn in A.
  destruct r as [out|e]; [|exact A]. destruct (out_arr _ out) as [ar|]; [|exact A]. destruct (set_state _ ar true false _) as [st r]. exact A.
Qed.

Section Run.
Variable ptrue : R -> bool.
Variable peqb : R -> R -> bool.

Lemma lastly_clean r fin : clean (fst r) -> clean (fst (lastly r fin)).
Proof. destruct r as [s o]. unfold lastly. destruct (fin (s_w s)) as [w [a|e]]; intros H; exact H. Qed.
Lemma lift_clean f s : clean s -> clean (fst (SessionModel.lift f s)).
Proof. unfold SessionModel.lift. destruct (f (s_w s)); intros H; exact H. Qed.
Lemma then_clean f g : clean (fst f) -> (forall s, clean s -> clean (fst (g s))) -> clean (fst (then_ f g)).
Proof. destruct f as [s [a|e]]; intros H G; cbn in *; auto. Qed.

Lemma run_clean p : forall s, clean s -> clean (fst (srun ptrue peqb p s)).
Proof.
  induction p as [|x|c mixed le rnd|c|c a force nz|c|p IHp q IHq|c body IH|body IH|body IH|e]; intros s H; cbn [srun].
  - exact H.
  - now apply lift_clean.
  - now apply sim_clean.
  - exact H.
  - unfold set_st. destruct (negb force && _); [exact H|]. destruct (num_qubits c (s_w s)) as [w [n|e]]; [|exact H].
    destruct (set_state (N.of_nat n) a force nz (s_st s c)) as [st r]. exact H.
  - exact H.
  - apply then_clean; auto.
  - destruct (context c (s_w s)) as [w [a|e]]; [|exact H]. apply then_clean; [now apply lift_clean|]. intros s' H'. apply lastly_clean. auto.
  - apply then_clean; [now apply lift_clean|]. intros s' H'. apply lastly_clean. auto.
  - apply IH, H.
  - exact H.
Qed.

Lemma entered_clean c s : clean s -> clean (fst (entered c s)).
Proof. apply lift_clean. Qed.

Lemma visits_clean p : forall s t, clean s -> svisits ptrue peqb p s t -> clean t.
Proof.
  induction p as [|x|c mixed le rnd|c|c a force nz|c|p IHp q IHq|c body IH|body IH|body IH|e]; intros s t H V; cbn [svisits] in V;
    (destruct V as [->|[->|V]]; [exact H|now apply run_clean|]); try (destruct V; fail).
  - destruct V as [V|V]; [eauto|].
    pose proof (run_clean p s H) as A. destruct (srun ptrue peqb p s) as [s' [a|e]]; [|destruct V]. eauto.
  - pose proof (entered_clean c s H) as A. destruct (entered c s) as [s' [a|e]]; [|destruct V]. eauto.
  - pose proof (lift_clean (set_frozen true CircuitError) s H) as A. destruct (SessionModel.lift _ s) as [s' [a|e]]; [|destruct V]. eauto.
  - eauto.
Qed.
End Run.

Lemma begin_clean ks : clean (begin ks).
Proof. intros o _. reflexivity. Qed.

From Verif Require Import SampleModel SampleSpec SampleProofs2 LinkSpec WorldSpec4 BornSpec BornProofs BornProofs2 MeasureSpec SimProofs7.

Lemma unmeasured ptrue peqb ks p (s : session) o : svisits ptrue peqb p (begin ks) s -> s_mst s o = None ->
  s_idx s o = [] /\ forall n a us num, sample_list n o (found s) a us num = Err CircuitError.
Proof.
  intros V H. split; [exact (visits_clean ptrue peqb p _ _ (begin_clean ks) V o H)|]. intros n a us num.
  destruct (sample_errors n o (found s) a us num) as (A & _). now apply A.
Qed.

Lemma session_collapse_last ptrue peqb extra p (s : session) c x :
  sexecutes ptrue peqb (own_ok R) p (begin (library_classes ++ extra)%list) ->
  svisits ptrue peqb p (begin (library_classes ++ extra)%list) s -> small R (s_w s) ->
  nth_error (w_circ (s_w s)) c = Some x ->
  (forall o y, In o (c_ops x) -> nth_error (w_op (s_w s)) o = Some y -> ready (s_w s) x o y) ->
  let n := List.length (circuit_qubits x) in 1 <= n -> n <= 30 ->
  forall before o qs bs, c_ops x = (before ++ [o])%list ->
  (forall o', In o' before -> ~ measures (s_w s) o') -> measuring (s_w s) o qs bs -> always (s_w s) o ->
  List.length bs = List.length qs -> NoDup bs -> (forall b, In b bs -> b < List.length (w_bit (s_w s))) ->
  exists v ts, at_places x qs ts /\ prepares (s_w s) c before v /\ normalised (N.of_nat n) v /\
    forall rnd, (forall k, uniform (rnd k)) ->
    exists s' a os, sim c false false rnd s = (s', Ok tt) /\ s_st s' c = mkCst (Some (mkArr [2 ^ N.of_nat n]%N a)) None /\
      map (bit_value R (s_w s')) bs = map Some os /\ (0 < joint (N.of_nat n) ts os v)%R /\
      forall i, (i < 2 ^ N.of_nat n)%N ->
        a i = if shows (N.of_nat n) i ts os then Cmul (RtoC (1 / sqrt (joint (N.of_nat n) ts os v))) (v i) else C0.
Proof.
  intros He Hv Hsm Hc Hrd n H1 H30 before o qs bs Ho Hf Hm Ha Hl Hnd Hb.
  apply (session_collapse ptrue peqb extra p s c x He Hv Hsm Hc Hrd H1 H30 before [] o qs bs); auto.
Qed.

Lemma session_first ptrue peqb extra p (s : session) c x (rnd : nat -> R) :
  sexecutes ptrue peqb (own_ok R) p (begin (library_classes ++ extra)%list) ->
  svisits ptrue peqb p (begin (library_classes ++ extra)%list) s -> small R (s_w s) ->
  nth_error (w_circ (s_w s)) c = Some x ->
  (forall o y, In o (c_ops x) -> nth_error (w_op (s_w s)) o = Some y -> ready (s_w s) x o y) ->
  (forall k, uniform (rnd k)) ->
  let n := List.length (circuit_qubits x) in 1 <= n -> n <= 30 ->
  forall before after o y qs, c_ops x = (before ++ o :: after)%list -> ~ In o (before ++ after) ->
  measures (s_w s) o -> always (s_w s) o -> s_mst s o = None ->
  nth_error (w_op (s_w s)) o = Some y -> o_qubits y = Some (map IQubit qs) -> qs <> [] ->
  exists s' ts v, sim c false false rnd s = (s', Ok tt) /\ at_places x qs ts /\ s_mst s' o = Some v /\ normalised (N.of_nat n) v /\
    forall oss, (forall os, In os oss -> List.length os = List.length qs) ->
    exists bx : box, List.length bx = List.length oss * List.length qs /\ in_unit bx /\
      volume bx = product (map (fun os => joint (N.of_nat n) ts os v) oss) /\
      forall us, (forall k, uniform (us k)) ->
        (sample_list (N.of_nat n) o (found s') QNone us (List.length oss) = Ok (map (map bit_nat) oss) <->
         inside (map us (seq 0 (List.length oss * List.length qs))) bx).
Proof.
  intros He Hv Hsm Hc Hrd Hu n H1 H30 before after o y qs Ho Hnin Hm Ha Hnone Ey Eq Hne.
  pose proof (visits_clean ptrue peqb p _ _ (begin_clean _) Hv o Hnone) as Ei.
  destruct (session_sampled ptrue peqb extra p s c x rnd He Hv Hsm Hc Hrd Hu H1 H30 before after o Ho Hnin Hm Ha)
    as (s' & qs' & ts & v & y' & E1 & E2 & E3 & E4 & E5 & E6 & E7 & E8).
  { rewrite Ei. intros t []. }
  rewrite Ey in E2. injection E2 as <-. rewrite Eq in E3. injection E3 as E3.
  assert (qs' = qs) by (symmetry; revert E3; apply map_one; now intros ? ? [= ->]). subst qs'.
  assert (HL : List.length ts = List.length qs) by (clear -E4; induction E4; cbn; congruence).
  exists s', ts, v. repeat (split; [assumption|]). intros oss Hos. rewrite Ei in E8. cbn [app] in E8. rewrite <- HL in *.
  apply (E8 oss); auto. intros ->. cbn in HL. apply Hne. now destruct qs.
Qed.

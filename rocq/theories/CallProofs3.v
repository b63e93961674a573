(** Proofs for C74: operators of circuits, and the simulation of a circuit in which another one is repeated. *)
From Coq Require Import List NArith Arith Bool Lia Ring.
From Verif Require Import Py CRing KernelModel KernelSpec KernelBits KernelProofs KernelProofs2 SimModel SimSpec SimProofs SimProofs2
  UnitaryModel UnitarySpec UnitaryProofs2 CallSpec CallProofs CallProofs2.
Import ListNotations.
Local Open Scope N_scope.

Section Ops.
Variable K : cring.
Add Ring KringCall4 : (r_theory K).

(** ** Operators *)
Section Operator.
Variable le : bool.
Variable st : scirc K.
Hypothesis Hwf : wf_circ st.
Hypothesis Hmf : measurement_free st.
Hypothesis Hun : unconditional st.

Lemma template_ops : forall o, In o (sc_ops K st) -> wf_op st o /\ is_measure (so_kind K o) = false /\ so_cond K o = [].
Proof. intros o Ho. split; [now apply Hwf|]. split; [now apply Hmf|now apply Hun]. Qed.

Fixpoint acted (ops : list (sop K)) (v : N -> K) : N -> K :=
  match ops with
  | [] => v
  | o :: ops' => acted ops' match target_indices K st o with Ok ts => gate_action le (num_qubits K st) (so_kind K o) ts v | Err _ => v end
  end.
Lemma acted_runs bits ops : (forall o, In o ops -> wf_op st o /\ is_measure (so_kind K o) = false /\ so_cond K o = []) ->
  forall v, runs le st bits ops v (acted ops v).
Proof.
  induction ops as [|o ops IH]; intros H v; [constructor; reflexivity|]. destruct (H o (or_introl eq_refl)) as (Hw & _ & Hc).
  destruct (placed_wf K st o Hw) as (ts & E & Hp & _). cbn [acted]. rewrite E.
  eapply runs_gate; [now apply not_zero|exact Hp|reflexivity|]. apply IH. intros; apply H; now right.
Qed.
Lemma operator_exists : exists M, operator le st M.
Proof.
  exists (fun r s => acted (sc_ops K st) (basis s) r). intros s _. exact (acted_runs (fun _ => None) _ template_ops (basis s)).
Qed.
Lemma operator_ext M s r : operator le st M -> s < 2 ^ num_qubits K st -> r < 2 ^ num_qubits K st -> forall w,
  runs le st (fun _ => None) (sc_ops K st) (basis s) w -> w r = M r s.
Proof.
  intros HM Hs Hr w H.
  pose proof (runs_linear K le st (fun _ => None) (sc_ops K st) [s] (fun _ => r1) (proj1 Hwf) template_ops _ _ (fun s => basis s) (fun s r => M r s) H) as L.
  specialize (L (fun t Ht => HM t ltac:(destruct Ht as [<-|[]]; exact Hs))). rewrite L; [cbn; ring| |exact Hr].
  intros i _. cbn. ring.
Qed.
Lemma operator_unique M M' s r : operator le st M -> operator le st M' -> s < 2 ^ num_qubits K st -> r < 2 ^ num_qubits K st -> M r s = M' r s.
Proof. intros H H' Hs Hr. symmetry. apply (operator_ext M s r H Hs Hr (fun r => M' r s)). now apply H'. Qed.

(** What the circuit makes of any state. *)
Lemma operator_runs M u w bits : operator le st M -> runs le st bits (sc_ops K st) u w ->
  forall i, i < 2 ^ num_qubits K st -> w i = mat_vec (num_qubits K st) M u i.
Proof.
  intros HM H i Hi.
  assert (HB : forall s, In s (Nrange (2 ^ num_qubits K st)) -> runs le st bits (sc_ops K st) (basis s) (acted (sc_ops K st) (basis s)))
    by (intros; apply acted_runs, template_ops).
  rewrite (runs_linear K le st bits (sc_ops K st) (Nrange (2 ^ num_qubits K st)) u (proj1 Hwf) template_ops u w basis _ H HB); [| |exact Hi].
  - unfold mat_vec. apply sumf_ext. intros s Hs. apply In_Nrange in Hs. rewrite (operator_ext M s i HM Hs Hi _ (acted_runs _ _ template_ops _)). ring.
  - intros j Hj. rewrite (sumf_single K _ _ j).
    + unfold basis. rewrite N.eqb_refl. ring.
    + apply NoDup_Nrange.
    + now apply In_Nrange.
    + intros s _ Hne. unfold basis. destruct (N.eqb_spec j s); [congruence|]. ring.
Qed.

Lemma operator_unitary M : unitary_circ st -> operator le st M -> unitary (2 ^ num_qubits K st) M.
Proof.
  intros Hu HM i j Hi Hj.
  assert (Hw : forall o, In o (sc_ops K st) -> wf_op st o /\ is_measure (so_kind K o) = false /\ unitary_kind (so_kind K o)).
  { intros o Ho. destruct (template_ops o Ho) as (A & B & _). auto. }
  pose proof (runs_inner K le st (fun _ => None) (sc_ops K st) (proj1 Hwf) Hw _ _ _ _ (HM i Hi) (HM j Hj)) as E.
  unfold inner in E. etransitivity; [exact E|]. rewrite (sumf_single K _ _ i).
  - unfold basis. rewrite N.eqb_refl, rconj_1. destruct (N.eqb_spec i j); ring.
  - apply NoDup_Nrange.
  - now apply In_Nrange.
  - intros s _ Hne. unfold basis. destruct (N.eqb_spec s i); [congruence|]. rewrite rconj_0. ring.
Qed.
End Operator.

Lemma runs_out le c bits ops v w w' : @runs K le c bits ops v w -> (forall i, i < 2 ^ num_qubits K c -> w' i = w i) -> runs le c bits ops v w'.
Proof.
  intros R. induction R as [v w Hv|o ops v w Hz R IH|o ops ts v v' w Hz Hp Ha R IH]; intros E.
  - constructor. intros i Hi. rewrite E by exact Hi. now apply Hv.
  - apply runs_skip; auto.
  - eapply runs_gate; eauto.
Qed.

(** build_unitary computes the operator. *)
Lemma build_operator st xs : wf_circ st -> Forall2 seen_as (sc_ops K st) xs -> unconditional st ->
  exists M, build_unitary K (sc_qubits K st) xs = Ok M /\ operator false st M.
Proof.
  intros Hwf HF Hc. destruct (build_unitary_runs K st (fun _ => None) xs Hwf HF Hc) as (M & E & H). exists M. split; [exact E|].
  intros s Hs.
  assert (Hm : measurement_free st).
  { intros o Ho. clear -HF Ho. induction HF as [|o' x ops xs H _ IH]; [destruct Ho|].
    destruct Ho as [->|Ho]; [|auto]. unfold seen_as in H. destruct (so_kind K o); try reflexivity. destruct x; contradiction. }
  pose proof (acted_runs false st (fun _ => None) (sc_ops K st) (template_ops st Hwf Hm Hc) (basis s)) as R.
  assert (E' : forall r, r < 2 ^ num_qubits K st -> M r s = acted false st (sc_ops K st) (basis s) r).
  { intros r Hr. rewrite <- (H _ _ R r Hr). symmetry. unfold mat_vec. rewrite (sumf_single K _ _ s).
    - unfold basis. rewrite N.eqb_refl. ring.
    - apply NoDup_Nrange.
    - now apply In_Nrange.
    - intros j _ Hne. unfold basis. destruct (N.eqb_spec j s); [congruence|]. ring. }
  exact (runs_out false st _ _ _ _ _ R E').
Qed.

(** ** Simulation *)
Variable U : Type.
Variable gtb : K -> U -> bool.
Variable is0 : K -> bool.
Variable invsqrt : K -> K.
Variable rnd : nat -> U.
Notation run_pure := (run_pure K U gtb is0 invsqrt rnd).
Notation simulate := (simulate K U gtb is0 invsqrt rnd).

Lemma run_pure_same c c' le ops : sc_qubits K c' = sc_qubits K c -> forall m v, run_pure c' le ops m v = run_pure c le ops m v.
Proof.
  intros E. induction ops as [|o ops IH]; intros m v; [reflexivity|]. cbn [SimModel.run_pure].
  unfold target_indices, num_qubits. rewrite E. destruct (match so_qubits K o with None => _ | _ => _ end); [|reflexivity].
  destruct (apply_instruction _ _ _ _ _ _ _ _ _ _ _ _ _) as [m' [v'|e]]; [apply IH|reflexivity].
Qed.
Lemma run_pure_app c le ops1 ops2 : forall m v, run_pure c le (ops1 ++ ops2) m v =
  match run_pure c le ops1 m v with (m', Ok u) => run_pure c le ops2 m' u | (m', Err e) => (m', Err e) end.
Proof.
  induction ops1 as [|o ops1 IH]; intros m v; [reflexivity|]. cbn [app SimModel.run_pure].
  destruct (target_indices K c o) as [ts|]; [|reflexivity].
  destruct (apply_instruction _ _ _ _ _ _ _ _ _ _ _ _ _) as [m' [v'|e]]; [apply IH|reflexivity].
Qed.

Theorem repeated_acts le st sd new ids ts M : wf_circ st -> measurement_free st -> unconditional st ->
  NoDup (sc_qubits K sd) -> sc_qubits K sd <> [] -> num_qubits K sd <= 30 ->
  NoDup ids -> length ids = length (sc_qubits K st) ->
  Forall2 (fun q t => nth_error (sc_qubits K sd) (N.to_nat t) = Some q) ids ts ->
  Forall2 (image K st ids) (sc_ops K st) new -> operator le st M ->
  continues (fun c => simulate c false le) sd (mkScirc K (sc_qubits K sd) (sc_ops K sd ++ new)) (acts_on le (num_qubits K sd) M ts).
Proof.
  intros Hst Hm Hc Hsd Hne Hn Hids Hl Hts F HM m.
  pose proof (template_ops st Hst Hm Hc) as Ht.
  pose proof (image_wf K st sd ids ts Hids Hts _ _ F Ht) as Hw.
  unfold SimModel.simulate. cbn [sc_qubits sc_ops]. destruct (sc_qubits K sd) as [|q0 ql] eqn:Eq; [congruence|].
  rewrite (run_pure_same sd (mkScirc K (q0 :: ql) (sc_ops K sd ++ new))) by (cbn; congruence). rewrite run_pure_app.
  destruct (run_pure sd le (sc_ops K sd) m (zero_state K)) as [m' [u|e]]; cbn; [|reflexivity].
  destruct (run_pure_runs K U gtb is0 invsqrt rnd sd le new m' Hn (fun o Ho => conj (proj1 (Hw o Ho)) (proj1 (proj2 (Hw o Ho)))) u) as (w & E & R).
  exists w. rewrite E. split; [reflexivity|]. intros i Hi.
  rewrite <- Eq in *.
  exact (image_acts K le st sd ids ts (proj1 Hst) Hsd Hids Hl Hts (m_bits K m') (sc_ops K st) new M F Ht HM u w R i Hi).
Qed.
End Ops.

Theorem operator_all (K : cring) le (c : scirc K) : wf_circ c -> measurement_free c -> unconditional c ->
  exists M, operator le c M /\
    (forall M', operator le c M' -> forall r s, r < 2 ^ num_qubits K c -> s < 2 ^ num_qubits K c -> M' r s = M r s) /\
    (unitary_circ c -> unitary (2 ^ num_qubits K c) M) /\
    (forall bits u w, runs le c bits (sc_ops K c) u w -> forall i, i < 2 ^ num_qubits K c -> w i = mat_vec (num_qubits K c) M u i).
Proof.
  intros Hw Hm Hc. destruct (operator_exists K le c Hw Hm Hc) as (M & HM). exists M. split; [exact HM|]. split; [|split].
  - intros M' HM' r s Hr Hs. now apply (operator_unique K le c Hw Hm Hc).
  - intros Hu. now apply (operator_unitary K le c Hw Hm Hc).
  - intros bits u w R. now apply (operator_runs K le c Hw Hm Hc M u w bits).
Qed.

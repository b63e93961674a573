(** Properties of the simulator: C27 (circuits), C29, C30, C34-C37, C40, C41, C46, C47, C58, C60, C61.

    Circuits are as the simulator sees them (SimModel.v): qubit ids and operations.  [wf_circ] asks for at
    least one qubit, distinct qubits, and operations on distinct qubits of the circuit with at most two
    controls; all library gates are of this kind.  At most 30 qubits: the generated C code computes
    [1 << n] in 32-bit integers. *)
From Coq Require Import List NArith ZArith Arith Bool Lia Reals Lra.
From Verif Require Import Py CRing Cplx KernelModel KernelSpec SimModel SimSpec SimReal SimProofs SimProofs2 SimProofs3
  SimProofs4 SimProofs5 SimProofs6 SimProofs7 MeasureSpec GateModel GateProofs StateModel StateSpec StateProofs.
Import ListNotations.
Local Open Scope R_scope.

(** ** C27 for whole circuits: the operations that are not blocked act one after the other on |0...0>. *)
Theorem C27_circuit_is_ordered_operators :
  forall (K : cring) (U : Type) (gtb : K -> U -> bool) (is0 : K -> bool) (invsqrt : K -> K) (rnd : nat -> U)
         (c : scirc K) (le : bool) (m : SimModel.mem K),
    wf_circ c -> measurement_free c -> (num_qubits K c <= 30)%N ->
    exists w, simulate K U gtb is0 invsqrt rnd c false le m = (m, Ok (SVec K w)) /\
      runs le c (m_bits K m) (sc_ops K c) (zero_state K) w.
Proof. exact simulate_runs. Qed.
Print Assumptions C27_circuit_is_ordered_operators.

(** SWAP, CSWAP and CX on three qubits, amplitudes in the integers. *)
Definition xz : N -> N -> Zcring := fun i j => if (i =? j)%N then 0%Z else 1%Z.
Definition swaps : scirc Zcring := mkScirc Zcring [4; 7; 9]%nat
  [mkSop Zcring (KOther Zcring 1 xz) (Some [4%nat]) [];
   mkSop Zcring (KSwap Zcring) (Some [4; 9]%nat) [];
   mkSop Zcring (KControlled Zcring 1 2 xz) (Some [9; 7]%nat) [];
   mkSop Zcring (KCSwap Zcring) (Some [7; 4; 9]%nat) [1%nat]].

Example C27_circuit_example : wf_circ swaps /\ measurement_free swaps.
Proof.
  split.
  - split; [repeat constructor; simpl; intuition discriminate|]. split; [discriminate|].
    intros o H. cbn in H.
    destruct H as [<-|[<-|[<-|[<-|[]]]]]; (eexists; split; [reflexivity|]; split;
      [intros q; cbn; intuition subst; auto|split;
      [intros _; repeat constructor; simpl; intuition discriminate|split;
      [intros k Hk; injection Hk as <-; reflexivity|cbn; auto]]]).
  - intros o H. cbn in H. destruct H as [<-|[<-|[<-|[<-|[]]]]]; reflexivity.
Qed.

(** ** C29: circuits of unitary gates and measurements always simulate, the result is normalised and
    set_state accepts it.  With [little_endian] measurements are not supported. *)
Theorem C29_simulation_normalised :
  forall (rnd : nat -> R) (c : scirc Ccring) (le : bool) (m : mem) (s : cst),
    (forall k, uniform (rnd k)) -> wf_circ c -> unitary_circ c -> (num_qubits Ccring c <= 30)%N ->
    (le = true -> measurement_free c) ->
    exists m' w, simulate_set rnd c false le m s
        = (m', mkCst (Some (mkArr [2 ^ num_qubits Ccring c]%N w)) None, Ok tt) /\
      simulate_C rnd c false le m = (m', Ok (SVec Ccring w)) /\ normalised (num_qubits Ccring c) w.
Proof. exact simulate_sets_state. Qed.
Print Assumptions C29_simulation_normalised.

(** Every gate of the library is unitary, whatever its parameters. *)
Theorem C29_library_gates : forall g : gate, unitary_kind (gate_kind g).
Proof. exact gate_kind_unitary. Qed.
Print Assumptions C29_library_gates.

(** Mixed-state simulation: the density matrix passes set_state too. *)
Theorem C29_mixed_simulation_accepted :
  forall (rnd : nat -> R) (c : scirc Ccring) (le : bool) (m : mem) (s : cst),
    (forall k, uniform (rnd k)) -> wf_circ c -> unitary_circ c -> measurement_free c ->
    (2 * num_qubits Ccring c <= 30)%N ->
    exists rho v, simulate_set rnd c true le m s
        = (m, mkCst None (Some (mkArr [2 ^ num_qubits Ccring c; 2 ^ num_qubits Ccring c]%N rho)), Ok tt) /\
      simulate_C rnd c false false m = (m, Ok (SVec Ccring v)) /\
      normalised (num_qubits Ccring c) v /\
      forall r k, (r < 2 ^ num_qubits Ccring c)%N -> (k < 2 ^ num_qubits Ccring c)%N ->
        rho (rowcol (num_qubits Ccring c) r k) = Cmul (v r) (Cconj (v k)).
Proof. exact simulate_sets_density. Qed.
Print Assumptions C29_mixed_simulation_accepted.

Example C29_example : wf_circ flipflop /\ unitary_circ flipflop /\ wf_circ rx_pi /\ unitary_circ rx_pi /\ measurement_free rx_pi.
Proof.
  split; [|split; [|exact rx_pi_wf]].
  - split; [repeat constructor; simpl; intuition discriminate|]. split; [discriminate|].
    intros o H. cbn in H. destruct H as [<-|[<-|[<-|[]]]]; (eexists; split; [reflexivity|]; split;
      [intros q; cbn; intuition subst; auto|split;
      [intros _; repeat constructor; simpl; intuition discriminate|split;
      [intros k Hk; try discriminate; injection Hk as <-; reflexivity|cbn; auto]]]).
  - intros o H. cbn in H. destruct H as [<-|[<-|[<-|[]]]]; try exact I; apply (gate_kind_unitary (GOne GX)).
Qed.

(** ** C30: little-endian results are the big-endian ones with the bits of the index reversed. *)
Theorem C30_endianness :
  forall (K : cring) (U : Type) (gtb : K -> U -> bool) (is0 : K -> bool) (invsqrt : K -> K) (rnd : nat -> U)
         (c : scirc K) (m : SimModel.mem K) (v w : N -> K),
    wf_circ c -> measurement_free c -> (num_qubits K c <= 30)%N ->
    simulate K U gtb is0 invsqrt rnd c false true m = (m, Ok (SVec K v)) ->
    simulate K U gtb is0 invsqrt rnd c false false m = (m, Ok (SVec K w)) ->
    forall i, (i < 2 ^ num_qubits K c)%N -> v i = w (bitrev (num_qubits K c) i).
Proof. exact simulate_endian. Qed.
Print Assumptions C30_endianness.

Definition zmem : SimModel.mem Zcring := mkMem Zcring (fun _ => None) 0 (fun _ => None) (fun _ => []) 0.
Definition zsim (c : scirc Zcring) (le : bool) : option (list Z) :=
  match snd (simulate Zcring unit (fun _ _ => true) (fun _ => false) (fun x => x) (fun _ => tt) c false le zmem) with
  | Ok (SVec _ v) => Some (map v (Nrange (2 ^ num_qubits Zcring c)))
  | _ => None
  end.

Example C30_example :
  zsim swaps false = Some [0; 0; 0; 0; 0; 0; 1; 0]%Z /\ zsim swaps true = Some [0; 0; 0; 1; 0; 0; 0; 0]%Z.
Proof. split; vm_compute; reflexivity. Qed.

(** ** C34: Born rule, collapse, repetition. *)
Theorem C34_born_rule_and_collapse :
  forall (le : bool) (n q : N) (u : R) (v : N -> C),
    (n <= 30)%N -> (q < n)%N -> normalised n v -> uniform u ->
    exists (o : bool) v',
      sample_qubit_C le n q u true v = Ok (if o then 1%nat else 0%nat, false, v') /\
      (o = false <-> u < prob le n q false v) /\
      0 < prob le n q o v /\
      normalised n v' /\
      (forall i, (i < 2 ^ n)%N ->
         v' i = if Bool.eqb (qbit le n i q) o then Cmul (RtoC (1 / sqrt (prob le n q o v))) (v i) else C0).
Proof. exact measurement_correct. Qed.
Print Assumptions C34_born_rule_and_collapse.

Theorem C34_measuring_again :
  forall (le : bool) (n q : N) (u u' : R) (v : N -> C) (k : nat) (w : bool) (v' : N -> C),
    (n <= 30)%N -> (q < n)%N -> normalised n v -> uniform u -> uniform u' ->
    sample_qubit_C le n q u true v = Ok (k, w, v') ->
    exists v'', sample_qubit_C le n q u' true v' = Ok (k, false, v'') /\
      forall i, (i < 2 ^ n)%N -> v'' i = v' i.
Proof. exact measurement_repeat. Qed.
Print Assumptions C34_measuring_again.

(** C34 inside a circuit: all qubits of a measurement are measured in turn with consecutive random numbers,
    the k-th outcome goes to the k-th bit and no other bit changes. *)
Theorem C34_measurement_in_circuit :
  forall (rnd : nat -> R), (forall k, uniform (rnd k)) ->
  forall (c : scirc Ccring) (o : sop Ccring) (mid : nat) (bs : list nat) (ops : list (sop Ccring)) (m : mem) (v : N -> C),
    wf_op c o -> (num_qubits Ccring c <= 30)%N ->
    so_kind Ccring o = KMeasure Ccring mid (Some bs) -> NoDup bs ->
    ~ some_zero (m_bits Ccring m) (so_cond Ccring o) -> normalised (num_qubits Ccring c) v ->
    exists ts m' w os, placed c o ts /\
      run_pure_C rnd c false (o :: ops) m v = run_pure_C rnd c false ops m' w /\
      collapses (num_qubits Ccring c) ts (map rnd (seq (m_pos Ccring m) (length ts))) os v w /\
      normalised (num_qubits Ccring c) w /\
      (forall k b, (k < length ts)%nat -> nth_error bs k = Some b -> m_bits Ccring m' b = nth_error os k) /\
      (forall b, (forall k, (k < length ts)%nat -> nth_error bs k <> Some b) -> m_bits Ccring m' b = m_bits Ccring m b) /\
      m_state Ccring m' mid = Some v /\
      m_idx Ccring m' mid = m_idx Ccring m mid ++ ts /\
      m_pos Ccring m' = (m_pos Ccring m + length ts)%nat /\
      m_warn Ccring m' = (m_warn Ccring m + (length ts - length bs))%nat.
Proof. exact measurement_in_circuit. Qed.
Print Assumptions C34_measurement_in_circuit.

Example C34_example : wf_op flipflop (meas_op 0 0 0) /\ normalised 1 (zero_state Ccring) /\ uniform (1 / 3).
Proof.
  split; [apply (proj1 C29_example); cbn; auto|]. split; [apply zero_normalised|]. unfold uniform; lra.
Qed.

(** ** C35: choosing one operator of a complete set never fails: no exception, no warning, and the
    probability that is divided by is positive. *)
Theorem C35_choice_cannot_fail :
  forall (le : bool) (n : N) (ts : list N) (gs : list (N -> N -> entry Ccring)) (u : R) (v : N -> C) (apply : bool),
    (n <= 30)%N -> (forall q, In q ts -> (q < n)%N) -> NoDup ts ->
    @complete Ccring (2 ^ N.of_nat (length ts)) (map vals gs) -> gs <> [] ->
    normalised n v -> uniform u ->
    exists k g v', nth_error gs k = Some g /\
      op_set_C (mkParams le n ts []) gs u apply v = Ok (k, false, v') /\
      Rsum (firstn k gs) (op_prob le n ts v) <= u < Rsum (firstn k gs) (op_prob le n ts v) + op_prob le n ts v g /\
      (apply = false -> v' = v) /\
      (apply = true -> normalised n v' /\
         forall i, (i < 2 ^ n)%N -> v' i = Cmul (RtoC (1 / sqrt (op_prob le n ts v g)))
                                                (@op_apply Ccring le n (vals g) ts [] v i)).
Proof. exact op_set_correct. Qed.
Print Assumptions C35_choice_cannot_fail.

(** ** C36: a conditional operation acts like the unconditional one unless some condition bit holds 0. *)
Theorem C36_conditional :
  forall (K : cring) (U : Type) (gtb : K -> U -> bool) (is0 : K -> bool) (invsqrt : K -> K) (rnd : nat -> U)
         (c : scirc K) (le : bool) (o : sop K) (ops : list (sop K)) (m : SimModel.mem K) (v : N -> K),
    wf_op c o ->
    (some_zero (m_bits K m) (so_cond K o) ->
       run_pure K U gtb is0 invsqrt rnd c le (o :: ops) m v = run_pure K U gtb is0 invsqrt rnd c le ops m v) /\
    (~ some_zero (m_bits K m) (so_cond K o) ->
       run_pure K U gtb is0 invsqrt rnd c le (o :: ops) m v
       = run_pure K U gtb is0 invsqrt rnd c le (uncond o :: ops) m v).
Proof. exact conditional_pure. Qed.
Print Assumptions C36_conditional.

Theorem C36_conditional_mixed :
  forall (K : cring) (U : Type) (gtb : K -> U -> bool) (is0 : K -> bool) (invsqrt : K -> K) (rnd : nat -> U)
         (c : scirc K) (o : sop K) (ops : list (sop K)) (m : SimModel.mem K) (v : N -> K),
    wf_op c o -> is_measure (so_kind K o) = false ->
    (some_zero (m_bits K m) (so_cond K o) ->
       run_mixed K U gtb is0 invsqrt rnd c (o :: ops) m v = run_mixed K U gtb is0 invsqrt rnd c ops m v) /\
    (~ some_zero (m_bits K m) (so_cond K o) ->
       run_mixed K U gtb is0 invsqrt rnd c (o :: ops) m v
       = run_mixed K U gtb is0 invsqrt rnd c (uncond o :: ops) m v).
Proof. exact conditional_mixed. Qed.
Print Assumptions C36_conditional_mixed.

Example C36_example :
  wf_op flipflop (x_op 0 [0%nat]) /\ some_zero (fun _ => Some false) (so_cond Ccring (x_op 0 [0%nat])) /\
  ~ some_zero (fun _ => None) (so_cond Ccring (x_op 0 [0%nat])).
Proof.
  split; [apply (proj1 C29_example); cbn; auto|]. split; [exists 0%nat; cbn; auto|].
  intros (b & _ & H). discriminate.
Qed.

(** ** C37: mixed-state simulation is the outer product of the pure state with its conjugate. *)
Theorem C37_mixed_is_outer_product :
  forall (K : cring) (U : Type) (gtb : K -> U -> bool) (is0 : K -> bool) (invsqrt : K -> K) (rnd : nat -> U)
         (c : scirc K) (m : SimModel.mem K),
    wf_circ c -> measurement_free c -> (2 * num_qubits K c <= 30)%N ->
    exists rho v,
      simulate K U gtb is0 invsqrt rnd c true false m = (m, Ok (SMat K rho)) /\
      simulate K U gtb is0 invsqrt rnd c false false m = (m, Ok (SVec K v)) /\
      forall r s, (r < 2 ^ num_qubits K c)%N -> (s < 2 ^ num_qubits K c)%N ->
        rho (rowcol (num_qubits K c) r s) = rmul (v r) (rconj (v s)).
Proof. exact simulate_mixed. Qed.
Print Assumptions C37_mixed_is_outer_product.

(** ** C40 *)
(** Samples of chosen qubits, or of those recorded, are independent measurements of the stored state; the
    memory is not even an output of [sample]. *)
Theorem C40_sample :
  forall (n : N) (mid : nat) (m : mem) (qs : option (list N)) (us : nat -> R) (num : nat) (v : N -> C),
    (n <= 30)%N -> (forall k, uniform (us k)) -> m_state Ccring m mid = Some v -> normalised n v ->
    let ts := match qs with Some l => l | None => m_idx Ccring m mid end in
    (ts = [] \/ (exists q, In q ts /\ (n <= q)%N) -> sample_C n mid m qs us num = Err ValueError) /\
    (ts <> [] -> (forall q, In q ts -> (q < n)%N) ->
     exists oss, sample_C n mid m qs us num = Ok (map (map bit_nat) oss) /\ length oss = num /\
       forall j os, nth_error oss j = Some os ->
         exists w, collapses n ts (map us (seq (j * length ts) (length ts))) os v w).
Proof. exact sample_spec. Qed.
Print Assumptions C40_sample.

(** After [k] simulations each sample lists the measured qubits [k] times. *)
Theorem C40_sample_after_runs_partial :
  forall (c : scirc Ccring) (mid : nat) (o : sop Ccring) (rnds : list (nat -> R)) (m : mem),
    wf_circ c -> unitary_circ c -> (num_qubits Ccring c <= 30)%N ->
    measured_once (sc_ops Ccring c) mid o -> (forall rnd, In rnd rnds -> forall k, uniform (rnd k)) ->
    rnds <> [] -> m_idx Ccring m mid = [] -> so_qubits Ccring o <> Some [] ->
    exists ts v, placed c o ts /\ normalised (num_qubits Ccring c) v /\
      m_state Ccring (simulate_again rnds c m) mid = Some v /\
      forall (us : nat -> R) num, (forall k, uniform (us k)) ->
      exists oss, sample_C (num_qubits Ccring c) mid (simulate_again rnds c m) None us num = Ok (map (map bit_nat) oss) /\
        length oss = num /\
        forall j os, nth_error oss j = Some os -> exists w,
          let tt := concat (repeat ts (length rnds)) in
          collapses (num_qubits Ccring c) tt (map us (seq (j * length tt) (length tt))) os v w.
Proof. exact sample_after_runs_spec. Qed.
Print Assumptions C40_sample_after_runs_partial.

Lemma flipflop_measured : measured_once (sc_ops Ccring flipflop) 0 (meas_op 0 0 0).
Proof.
  exists [x_op 0 [0%nat]; x_op 0 []], [], (Some [0%nat]). split; [reflexivity|]. split; [reflexivity|]. split; [reflexivity|].
  intros x H bits. cbn in H. destruct H as [<-|[<-|[]]]; discriminate.
Qed.

Example C40_example : wf_circ flipflop /\ unitary_circ flipflop /\ measured_once (sc_ops Ccring flipflop) 0 (meas_op 0 0 0).
Proof. split; [apply C29_example|]. split; [apply C29_example|apply flipflop_measured]. Qed.

(** C40 is false after a second simulation: one measured qubit, two values per sample. *)
Theorem C40_second_run_refuted :
  exists (c : scirc Ccring) (mid : nat) (o : sop Ccring) (rnd : nat -> R),
    so_qubits Ccring o = Some [0%nat] /\ measured_once (sc_ops Ccring c) mid o /\
    exists ss, sample_C (num_qubits Ccring c) mid (simulate_again [rnd; rnd] c mem0) None rnd 1 = Ok ss /\
      map (@length nat) ss = [2%nat].
Proof.
  exists flipflop, 0%nat, (meas_op 0 0 0), (fun _ => 1 / 3).
  split; [reflexivity|]. split; [exact flipflop_measured|].
  assert (Hu : forall k : nat, uniform ((fun _ => 1 / 3) k)) by (intros _; unfold uniform; lra).
  destruct (sample_after_runs flipflop 0 (meas_op 0 0 0) [fun _ => 1 / 3; fun _ => 1 / 3] mem0) as (ts & Hp & H);
    try apply C29_example; try exact flipflop_measured; try discriminate; try reflexivity.
  { intros rnd [<-|[<-|[]]]; exact Hu. }
  destruct (H (fun _ => 1 / 3) 1%nat Hu) as (ss & E & Hl & Hf).
  exists ss. split; [exact E|].
  destruct ss as [|os [|]]; try discriminate. inversion Hf as [|? ? [Ho _] _]; subst. cbn [map]. rewrite Ho.
  destruct Hp as (qs & Eq & F). injection Eq as <-. inversion F as [|? ? ? ? _ F']; subst. inversion F'; subst. reflexivity.
Qed.
Print Assumptions C40_second_run_refuted.

(** ** C41 *)
(** The result depends only on the circuit, the random numbers and the bits in [D], provided that every
    condition refers to [D] or to bits measured before.  With [D = []] earlier runs do not matter. *)
Theorem C41_deterministic_partial :
  forall (K : cring) (U : Type) (gtb : K -> U -> bool) (is0 : K -> bool) (invsqrt : K -> K) (rnd : nat -> U)
         (c : scirc K) (le : bool) (m1 m2 : SimModel.mem K) (D : list nat),
    m_pos K m1 = m_pos K m2 -> (forall b, In b D -> m_bits K m1 b = m_bits K m2 b) ->
    conditions_set D (sc_ops K c) ->
    snd (simulate K U gtb is0 invsqrt rnd c false le m1) = snd (simulate K U gtb is0 invsqrt rnd c false le m2) /\
    (is_ok (snd (simulate K U gtb is0 invsqrt rnd c false le m1)) = true -> sc_qubits K c <> [] ->
     forall b, In b (determined D (sc_ops K c)) ->
       m_bits K (fst (simulate K U gtb is0 invsqrt rnd c false le m1)) b
       = m_bits K (fst (simulate K U gtb is0 invsqrt rnd c false le m2)) b).
Proof. exact simulate_deterministic. Qed.
Print Assumptions C41_deterministic_partial.

Example C41_example :
  conditions_set (K := Ccring) [] [meas_op 0 0 0; x_op 0 [0%nat]] /\
  determined (K := Ccring) [] [meas_op 0 0 0; x_op 0 [0%nat]] = [0%nat].
Proof. split; [|reflexivity]. cbn. repeat split; intros b Hb; exact Hb. Qed.

(** C41 is false when a condition comes before the measurement of its bit: the same circuit with the same
    random numbers gives another state and another bit the second time. *)
Theorem C41_history_refuted :
  exists (c : scirc Ccring) (rnd : nat -> R), (forall k, uniform (rnd k)) /\
    let m1 := fst (simulate_C rnd c false false mem0) in
    let m1' := mkMem Ccring (m_bits Ccring m1) 0 (m_state Ccring m1) (m_idx Ccring m1) (m_warn Ccring m1) in
    snd (simulate_C rnd c false false mem0) <> snd (simulate_C rnd c false false m1') /\
    m_bits Ccring m1 0%nat <> m_bits Ccring (fst (simulate_C rnd c false false m1')) 0%nat.
Proof.
  exists flipflop, (fun _ => 1 / 3). assert (Hu : forall k : nat, uniform ((fun _ => 1 / 3) k)) by (intros _; unfold uniform; lra).
  split; [exact Hu|]. exact (simulate_history_dependent _ Hu).
Qed.
Print Assumptions C41_history_refuted.

(** ** C46: mixed states ignore [little_endian]. *)
Theorem C46_mixed_big_endian_partial :
  forall (rnd : nat -> R) (c : scirc Ccring) (le : bool) (m : mem),
    wf_circ c -> measurement_free c -> (2 * num_qubits Ccring c <= 30)%N ->
    exists rho v, simulate_C rnd c true le m = (m, Ok (SMat Ccring rho)) /\
      simulate_C rnd c false false m = (m, Ok (SVec Ccring v)) /\
      forall r s, (r < 2 ^ num_qubits Ccring c)%N -> (s < 2 ^ num_qubits Ccring c)%N ->
        rho (rowcol (num_qubits Ccring c) r s) = Cmul (v r) (Cconj (v s)).
Proof. exact (fun rnd c le m => simulate_mixed Ccring R Cgtb Cis0 Cinvsqrt rnd c m). Qed.
Print Assumptions C46_mixed_big_endian_partial.

Theorem C46_little_endian_refuted :
  exists (c : scirc Ccring), wf_circ c /\ measurement_free c /\
    forall (rnd : nat -> R) (m : mem), exists rho v,
      simulate_C rnd c true true m = (m, Ok (SMat Ccring rho)) /\
      simulate_C rnd c false true m = (m, Ok (SVec Ccring v)) /\
      rho (rowcol 2 1 1) <> Cmul (v 1%N) (Cconj (v 1%N)).
Proof.
  exists x_first. split; [apply x_first_wf|]. split; [apply x_first_wf|]. exact mixed_ignores_endian.
Qed.
Print Assumptions C46_little_endian_refuted.

(** ** C47: no circuit with a measurement can be simulated with mixed_state=True. *)
Theorem C47_mixed_measurement_refuted :
  (exists c : scirc Ccring, wf_circ c /\ exists o, In o (sc_ops Ccring c) /\ is_measure (so_kind Ccring o) = true) /\
  forall (K : cring) (U : Type) (gtb : K -> U -> bool) (is0 : K -> bool) (invsqrt : K -> K) (rnd : nat -> U)
         (c : scirc K) (le : bool) (m : SimModel.mem K),
    wf_circ c -> (2 * num_qubits K c <= 30)%N ->
    (exists o, In o (sc_ops K c) /\ is_measure (so_kind K o) = true) ->
    snd (simulate K U gtb is0 invsqrt rnd c true le m) = Err TypeError.
Proof.
  split; [|exact mixed_measure_fails].
  exists flipflop. split; [apply C29_example|]. exists (meas_op 0 0 0). cbn; auto.
Qed.
Print Assumptions C47_mixed_measurement_refuted.

(** The true part: without measurements both modes succeed. *)
Theorem C47_measurement_free_partial :
  forall (K : cring) (U : Type) (gtb : K -> U -> bool) (is0 : K -> bool) (invsqrt : K -> K) (rnd : nat -> U)
         (c : scirc K) (m : SimModel.mem K),
    wf_circ c -> measurement_free c -> (2 * num_qubits K c <= 30)%N ->
    exists rho v,
      simulate K U gtb is0 invsqrt rnd c true false m = (m, Ok (SMat K rho)) /\
      simulate K U gtb is0 invsqrt rnd c false false m = (m, Ok (SVec K v)) /\
      forall r s, (r < 2 ^ num_qubits K c)%N -> (s < 2 ^ num_qubits K c)%N ->
        rho (rowcol (num_qubits K c) r s) = rmul (v r) (rconj (v s)).
Proof. exact simulate_mixed. Qed.
Print Assumptions C47_measurement_free_partial.

(** ** C58: a gate with a repeated qubit destroys the state; the total probability becomes 0. *)
Theorem C58_repeated_qubit_refuted :
  exists c : scirc Ccring, unitary_circ c /\ forall (rnd : nat -> R) (m : mem), exists w,
    simulate_C rnd c false false m = (m, Ok (SVec Ccring w)) /\
    Rsum (Nrange (2 ^ num_qubits Ccring c)) (fun i => Cnorm2 (w i)) = 0.
Proof.
  exists repeated. split; [|exact repeated_loses_norm].
  intros o H. cbn in H. destruct H as [<-|[<-|[]]]; [apply (gate_kind_unitary (GOne GX))|apply (gate_kind_unitary (GC GHadamard))].
Qed.
Print Assumptions C58_repeated_qubit_refuted.

(** ** C60: the noise channels are complete, for every strength between 0 and 1; C35 then applies. *)
Theorem C60_dephase_complete :
  forall eps : R, 0 <= eps <= 1 -> @complete Ccring 2 (map vals (dephase_ops eps)).
Proof. exact dephase_complete. Qed.
Print Assumptions C60_dephase_complete.

Theorem C60_amp_damp_complete :
  forall eps : R, 0 <= eps <= 1 -> @complete Ccring 2 (map vals (amp_damp_ops eps)).
Proof. exact amp_damp_complete. Qed.
Print Assumptions C60_amp_damp_complete.

Example C60_example : 0 <= 1 / 100 <= 1.
Proof. lra. Qed.

(** ** C61: operations without a rule *)
(** The operation has a rule in apply_instruction, disregarding its qubits. *)
Theorem C61_unsupported_partial :
  forall (K : cring) (U : Type) (gtb : K -> U -> bool) (is0 : K -> bool) (invsqrt : K -> K) (rnd : nat -> U)
         (c : scirc K) (le : bool) (o : sop K) (ops : list (sop K)) (m : SimModel.mem K) (v : N -> K) (ts : list N),
    ~ some_zero (m_bits K m) (so_cond K o) -> target_indices K c o = Ok ts -> ~ supported (so_kind K o) ->
    (exists e, run_pure K U gtb is0 invsqrt rnd c le (o :: ops) m v = (m, Err e)) \/
    ((exists nc g, so_kind K o = KControlled K nc 2 g /\ nc <> 1%nat /\ nc <> 2%nat) /\
     run_pure K U gtb is0 invsqrt rnd c le (o :: ops) m v = run_pure K U gtb is0 invsqrt rnd c le ops m v).
Proof.
  intros K U gtb is0 invsqrt rnd c le o ops m v ts Hz Ht Hs.
  cbn [run_pure]. rewrite Ht, (apply_uncond _ _ _ _ _ _ _ _ _ _ _ _ _ Hz).
  unfold apply_instruction. change (is_blocked K m (uncond o)) with false. cbv iota. cbn [uncond so_kind].
  destruct (so_kind K o) as [mid bits| | | |nc dim g|nq g]; cbn in Hs; try tauto.
  - destruct (N.eqb_spec dim 2) as [->|Hd]; cbn [negb]; [|left; eexists; reflexivity].
    right. assert (Hnc : nc <> 1%nat /\ nc <> 2%nat) by tauto.
    split; [exists nc, g; tauto|]. destruct nc as [|[|[|]]]; try lia; reflexivity.
  - destruct (Nat.eqb_spec nq 1) as [->|Hq]; [tauto|]. cbn [negb]. left; eexists; reflexivity.
Qed.
Print Assumptions C61_unsupported_partial.

(** X on three qubits, then an X controlled by all three: the last operation is silently left out. *)
Definition cccx : scirc Zcring := mkScirc Zcring [0; 1; 2; 3]%nat
  [mkSop Zcring (KOther Zcring 1 xz) (Some [0%nat]) []; mkSop Zcring (KOther Zcring 1 xz) (Some [1%nat]) [];
   mkSop Zcring (KOther Zcring 1 xz) (Some [2%nat]) [];
   mkSop Zcring (KControlled Zcring 3 2 xz) (Some [0; 1; 2; 3]%nat) []].

Theorem C61_three_controls_refuted :
  exists c : scirc Zcring, exists v w,
    zsim (mkScirc Zcring (sc_qubits Zcring c) (removelast (sc_ops Zcring c))) false = Some v /\
    zsim c false = Some w /\
    w <> map (op_apply false 4 xz [3%N] [0%N; 1%N; 2%N] (fun i => nth (N.to_nat i) v 0%Z)) (Nrange 16).
Proof.
  exists cccx. eexists _, _. split; [vm_compute; reflexivity|]. split; [vm_compute; reflexivity|].
  vm_compute. discriminate.
Qed.
Print Assumptions C61_three_controls_refuted.

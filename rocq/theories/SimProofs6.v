(** Witnesses: behaviour of particular circuits. *)
From Coq Require Import List NArith Arith Bool Lia Reals Lra.
From Verif Require Import Py CRing Cplx KernelModel KernelSpec KernelBits KernelProofs KernelProofs2 SimModel SimSpec
  SimReal SimProofs SimProofs2 SimProofs3 SimProofs4 SimProofs5 UnitaryModel GateModel GateProofs.
Import ListNotations.
Local Open Scope R_scope.

(** ** A circuit whose result depends on the bit left behind by the previous run *)
Definition x_op (q : nat) (cond : list nat) : sop Ccring := mkSop Ccring (gate_kind (GOne GX)) (Some [q]) cond.
Definition meas_op (mid q b : nat) : sop Ccring := mkSop Ccring (KMeasure Ccring mid (Some [b])) (Some [q]) [].

(** X(q0).conditional(b); X(q0); Measurement(q0) | b *)
Definition flipflop : scirc Ccring := mkScirc Ccring [0%nat] [x_op 0 [0%nat]; x_op 0 []; meas_op 0 0 0].

Definition basis_state (k : N) (v : N -> C) : Prop := forall i, (i < 2)%N -> v i = if (i =? k)%N then C1 else C0.

Lemma x_basis (k : N) v v' : (k < 2)%N -> basis_state k v ->
  (forall i, (i < 2 ^ 1)%N -> v' i = @gate_action Ccring false 1 (gate_kind (GOne GX)) [0%N] v i) ->
  basis_state (1 - k) v'.
Proof.
  intros Hk Hv H i Hi. rewrite H by exact Hi. cbn [gate_kind gate_action].
  unfold op_apply. cbn [forallb length]. change (Nrange (2 ^ N.of_nat 1)) with [0%N; 1%N]. cbn [sumf fold_right].
  destruct (two_cases i Hi) as [-> | ->];
  [change (write false 1 0 [0%N] 0) with 0%N; change (write false 1 0 [0%N] 1) with 1%N; change (read false 1 0 [0%N]) with 0%N
  |change (write false 1 1 [0%N] 0) with 0%N; change (write false 1 1 [0%N] 1) with 1%N; change (read false 1 1 [0%N]) with 1%N];
  rewrite (Hv 0%N), (Hv 1%N) by lia;
  destruct (two_cases k Hk) as [-> | ->]; cbn; ceq; ring.
Qed.

Lemma basis_normalised k v : (k < 2)%N -> basis_state k v -> normalised 1 v.
Proof.
  intros Hk Hv. unfold normalised. change (Nrange (2 ^ 1)) with [0%N; 1%N]. cbn [Rsum fold_right].
  rewrite (Hv 0%N), (Hv 1%N) by lia. destruct (two_cases k Hk) as [-> | ->]; cbn; unfold Cnorm2; cbn; ring.
Qed.

Lemma measure_basis k v u : (k < 2)%N -> basis_state k v -> uniform u ->
  exists v', sample_qubit_C false 1 0 u true v = Ok (N.to_nat k, false, v') /\ basis_state k v'.
Proof.
  intros Hk Hv Hu.
  destruct (measurement_correct false 1 0 u v ltac:(lia) ltac:(lia) (basis_normalised k v Hk Hv) Hu)
    as (o & v' & E & Ho & Hp & Hn & Hval).
  assert (Hpf : prob false 1 0 false v = if (k =? 0)%N then 1 else 0).
  { unfold prob. change (Nrange (2 ^ 1)) with [0%N; 1%N]. change (filter _ [0%N; 1%N]) with [0%N]. cbn [Rsum fold_right].
    rewrite (Hv 0%N) by lia. destruct (two_cases k Hk) as [-> | ->]; cbn; unfold Cnorm2; cbn; ring. }
  assert (Hpt : prob false 1 0 true v = if (k =? 0)%N then 0 else 1).
  { unfold prob. change (Nrange (2 ^ 1)) with [0%N; 1%N]. change (filter _ [0%N; 1%N]) with [1%N]. cbn [Rsum fold_right].
    rewrite (Hv 1%N) by lia. destruct (two_cases k Hk) as [-> | ->]; cbn; unfold Cnorm2; cbn; ring. }
  assert (Hob : o = (k =? 1)%N).
  { destruct (two_cases k Hk) as [-> | ->]; cbn in *; destruct o; auto; lra. }
  exists v'. split.
  - rewrite E, Hob. destruct (two_cases k Hk) as [-> | ->]; reflexivity.
  - intros i Hi. rewrite Hval by exact Hi. rewrite (Hv i Hi).
    assert (Hp1 : prob false 1 0 o v = 1).
    { rewrite Hob. destruct (two_cases k Hk) as [-> | ->]; cbn in *; assumption. }
    rewrite Hp1, sqrt_1, Hob.
    destruct (two_cases k Hk) as [-> | ->], (two_cases i Hi) as [-> | ->]; cbn; try reflexivity; ceq; field.
Qed.

Lemma flipflop_run rnd (m : mem) : (forall k, uniform (rnd k)) ->
  let b := match m_bits Ccring m 0%nat with Some false => true | _ => false end in
  exists m' w, simulate_C rnd flipflop false false m = (m', Ok (SVec Ccring w)) /\
    m_bits Ccring m' 0%nat = Some b /\ basis_state (N.b2n b) w.
Proof.
  intros Hr b.
  assert (Hz : basis_state 0 (zero_state Ccring)).
  { intros i Hi. destruct (two_cases i Hi) as [-> | ->]; reflexivity. }
  assert (X : forall cond v k, (k < 2)%N -> basis_state k v -> is_blocked Ccring m (x_op 0 cond) = false ->
    exists v', apply_instruction Ccring R Cgtb Cis0 Cinvsqrt rnd 1 false false (x_op 0 cond) [0%N] m v = (m, Ok v') /\
      basis_state (1 - k) v').
  { intros cond v k Hk Hv Hb.
    destruct (apply_gate Ccring R Cgtb Cis0 Cinvsqrt rnd 1 false false (x_op 0 cond) [0%N] m v) as (v' & E & H); auto; try lia.
    - reflexivity.
    - intros a Ha. injection Ha as <-. reflexivity.
    - split; [repeat constructor; auto|intros t [<-|[]]; lia].
    - exists v'. split; [exact E|]. exact (x_basis k v v' Hk Hv H). }
  assert (Rest : forall v k, (k < 2)%N -> basis_state k v -> exists m' w,
    run_pure Ccring R Cgtb Cis0 Cinvsqrt rnd flipflop false [x_op 0 []; meas_op 0 0 0] m v = (m', Ok w) /\
    m_bits Ccring m' 0%nat = Some (N.eqb (1 - k) 1) /\ basis_state (1 - k) w).
  { intros v k Hk Hv. destruct (X [] v k Hk Hv eq_refl) as (v1 & E1 & H1).
    cbn [run_pure]. change (target_indices Ccring flipflop (x_op 0 [])) with (Ok [0%N] : res (list N)).
    change (num_qubits Ccring flipflop) with 1%N. cbv iota beta. rewrite E1.
    change (target_indices Ccring flipflop (meas_op 0 0 0)) with (Ok [0%N] : res (list N)). cbv iota beta.
    unfold apply_instruction. change (is_blocked Ccring m (meas_op 0 0 0)) with false. cbv iota.
    cbn [so_kind meas_op]. unfold measure. cbn [measure_loop].
    destruct (measure_basis (1 - k) v1 (rnd (m_pos Ccring m)) ltac:(lia) H1 (Hr _)) as (v2 & E2 & H2).
    change (m_pos Ccring (set_mstate Ccring 0 v1 m)) with (m_pos Ccring m). fold sample_qubit_C. rewrite E2.
    cbn [measure_loop nth_error]. eexists _, v2. split; [reflexivity|]. split; [|exact H2].
    cbn [add_idx set_bit m_bits Nat.eqb]. f_equal.
    destruct (two_cases k Hk) as [-> | ->]; reflexivity. }
  assert (Main : exists m' w, run_pure Ccring R Cgtb Cis0 Cinvsqrt rnd flipflop false (sc_ops Ccring flipflop) m (zero_state Ccring)
      = (m', Ok w) /\ m_bits Ccring m' 0%nat = Some b /\ basis_state (N.b2n b) w).
  { unfold flipflop at 2. cbn [sc_ops run_pure].
    change (target_indices Ccring flipflop (x_op 0 [0%nat])) with (Ok [0%N] : res (list N)).
    change (num_qubits Ccring flipflop) with 1%N. cbv iota beta.
    destruct (is_blocked Ccring m (x_op 0 [0%nat])) eqn:Eb.
    - assert (Hb : b = true).
      { unfold b. unfold is_blocked in Eb. cbn [so_cond x_op forallb] in Eb. unfold bit_true in Eb.
        destruct (m_bits Ccring m 0%nat) as [[|]|]; try discriminate. reflexivity. }
      unfold apply_instruction at 1. rewrite Eb. rewrite Hb.
      destruct (Rest (zero_state Ccring) 0%N ltac:(lia) Hz) as (m' & w & E & H1 & H2). exists m', w. auto.
    - assert (Hb : b = false).
      { unfold b. unfold is_blocked in Eb. cbn [so_cond x_op forallb] in Eb. unfold bit_true in Eb.
        destruct (m_bits Ccring m 0%nat) as [[|]|]; try discriminate; reflexivity. }
      destruct (X [0%nat] (zero_state Ccring) 0%N ltac:(lia) Hz Eb) as (v1 & E1 & H1). rewrite E1, Hb.
      destruct (Rest v1 1%N ltac:(lia) H1) as (m' & w & E & G1 & G2). exists m', w. auto. }
  destruct Main as (m' & w & E & H1 & H2). exists m', w. split; [|auto].
  unfold simulate_C, simulate. cbn [sc_qubits flipflop]. fold flipflop. rewrite E. reflexivity.
Qed.

Definition mem0 : mem := mkMem Ccring (fun _ => None) 0 (fun _ => None) (fun _ => []) 0.

Theorem simulate_history_dependent rnd : (forall k, uniform (rnd k)) ->
  let m1 := fst (simulate_C rnd flipflop false false mem0) in
  let m1' := mkMem Ccring (m_bits Ccring m1) 0 (m_state Ccring m1) (m_idx Ccring m1) (m_warn Ccring m1) in
  snd (simulate_C rnd flipflop false false mem0) <> snd (simulate_C rnd flipflop false false m1') /\
  m_bits Ccring m1 0%nat <> m_bits Ccring (fst (simulate_C rnd flipflop false false m1')) 0%nat.
Proof.
  intros Hr m1 m1'.
  destruct (flipflop_run rnd mem0 Hr) as (a & w & E & Hb & Hw).
  destruct (flipflop_run rnd m1' Hr) as (a' & w' & E' & Hb' & Hw').
  assert (Hm : m_bits Ccring m1' 0%nat = Some false) by (cbn [m1' m_bits]; unfold m1; rewrite E; exact Hb).
  rewrite Hm in Hb', Hw'. rewrite E'. unfold m1. rewrite E. cbn [fst snd]. split.
  - intros H. injection H as H. pose proof (Hw 0%N ltac:(lia)) as A1. pose proof (Hw' 0%N ltac:(lia)) as A2.
    rewrite H in A1. rewrite A1 in A2. cbn in A2. apply (f_equal fst) in A2. cbn in A2. lra.
  - rewrite Hb, Hb'. discriminate.
Qed.

(** ** Repeated qubits *)
Lemma same_qubit_kernel (K : cring) (g : N -> N -> K) (v : N -> K) :
  option_map (fun v' => map v' (Nrange 4)) (kernel (mkParams false 2 [0%N] [0%N]) (runtime_gate g) None v)
  = Some [v 0%N; v 1%N; radd (rmul (g 1%N 0%N) (v 2%N)) (rmul (g 1%N 1%N) (v 2%N)); v 3%N].
Proof. vm_compute. reflexivity. Qed.

(** X(q0); CHadamard(q0, q0) *)
Definition repeated : scirc Ccring := mkScirc Ccring [0%nat; 1%nat]
  [x_op 0 []; mkSop Ccring (gate_kind (GC GHadamard)) (Some [0%nat; 0%nat]) []].

Theorem repeated_loses_norm rnd (m : mem) : exists w,
  simulate_C rnd repeated false false m = (m, Ok (SVec Ccring w)) /\
  Rsum (Nrange (2 ^ num_qubits Ccring repeated)) (fun i => Cnorm2 (w i)) = 0.
Proof.
  destruct (apply_gate Ccring R Cgtb Cis0 Cinvsqrt rnd 2 false false (x_op 0 []) [0%N] m (zero_state Ccring))
    as (v & E & Hv); try reflexivity; try lia.
  { intros a Ha. injection Ha as <-. reflexivity. }
  { split; [repeat constructor; auto|intros t [<-|[]]; lia]. }
  assert (V : v 0%N = C0 /\ v 1%N = C0 /\ v 2%N = C1 /\ v 3%N = C0).
  { repeat split; rewrite Hv by reflexivity; cbn [gate_kind gate_action conj_kind conj_gate x_op so_kind];
    unfold op_apply; cbn [forallb length]; change (Nrange (2 ^ N.of_nat 1)) with [0%N; 1%N]; cbn [sumf fold_right];
    cbn; ceq; ring. }
  destruct V as (V0 & V1 & V2 & V3).
  pose proof (same_qubit_kernel Ccring (matrix1 GHadamard) v) as HK.
  destruct (kernel (mkParams false 2 [0%N] [0%N]) (runtime_gate (matrix1 GHadamard : N -> N -> Ccring)) None v) as [w|] eqn:Ek; [|discriminate].
  cbn [option_map] in HK. injection HK as W0 W1 W2 W3.
  exists w. split.
  - unfold simulate_C, simulate. cbn [sc_qubits repeated]. fold repeated.
    change (sc_ops Ccring repeated) with [x_op 0 []; mkSop Ccring (gate_kind (GC GHadamard)) (Some [0%nat; 0%nat]) []].
    cbn [run_pure]. change (target_indices Ccring repeated (x_op 0 [])) with (Ok [0%N] : res (list N)).
    change (num_qubits Ccring repeated) with 2%N. cbv iota beta. rewrite E.
    change (target_indices Ccring repeated (mkSop Ccring (gate_kind (GC GHadamard)) (Some [0%nat; 0%nat]) []))
      with (Ok [0%N; 0%N] : res (list N)). cbv iota beta.
    unfold apply_instruction. change (is_blocked Ccring m (mkSop Ccring (gate_kind (GC GHadamard)) (Some [0%nat; 0%nat]) [])) with false.
    cbn [so_kind gate_kind]. change (negb (2 =? 2)%N) with false. cbv iota. unfold item. cbn [nth_error bind conj_gate].
    rewrite Ek. reflexivity.
  - change (Nrange (2 ^ num_qubits Ccring repeated)) with [0%N; 1%N; 2%N; 3%N]. cbn [Rsum fold_right].
    change (w 0%N = v 0%N) in W0. change (w 1%N = v 1%N) in W1. change (w 3%N = v 3%N) in W3.
    rewrite W0, W1, W3, V0, V1, V3.
    assert (Hw2 : w 2%N = C0).
    { rewrite W2, V2. unfold matrix1, Cscale, lit. cbn -[Rdiv sqrt]. ceq; ring. }
    rewrite Hw2. unfold Cnorm2, C0, Re, Im. cbn [fst snd]. ring.
Qed.

(** ** Mixed states ignore [little_endian] *)
Definition x_first : scirc Ccring := mkScirc Ccring [0%nat; 1%nat] [x_op 0 []].

Lemma x_first_wf : wf_circ x_first /\ measurement_free x_first.
Proof.
  split.
  - split; [repeat constructor; simpl; intuition discriminate|]. split; [discriminate|].
    intros o [<-|[]]. exists [0%nat]. repeat split; auto.
    + intros q [<-|[]]. now left.
    + repeat constructor; auto.
    + intros k Hk. injection Hk as <-. reflexivity.
  - intros o [<-|[]]. reflexivity.
Qed.

Theorem mixed_ignores_endian rnd (m : mem) : exists rho v,
  simulate_C rnd x_first true true m = (m, Ok (SMat Ccring rho)) /\
  simulate_C rnd x_first false true m = (m, Ok (SVec Ccring v)) /\
  rho (rowcol 2 1 1) <> Cmul (v 1%N) (Cconj (v 1%N)).
Proof.
  destruct x_first_wf as [Hwf Hmf].
  destruct (simulate_mixed Ccring R Cgtb Cis0 Cinvsqrt rnd x_first m Hwf Hmf ltac:(discriminate)) as (rho & vb & Er & Eb & Hr).
  destruct (simulate_runs Ccring R Cgtb Cis0 Cinvsqrt rnd x_first true m Hwf Hmf ltac:(discriminate)) as (vl & El & Hl).
  exists rho, vl. split; [exact Er|]. split; [exact El|].
  pose proof (simulate_endian Ccring R Cgtb Cis0 Cinvsqrt rnd x_first m vl vb Hwf Hmf ltac:(discriminate) El Eb) as He.
  assert (Hv1 : vl 1%N = C1).
  { change (sc_ops Ccring x_first) with [x_op 0 []] in Hl.
    inversion Hl as [|o ops v w Hz _ E1 E2 E3|o ops ts v v' w Hz Hp Hg Hrest E1 E2 E3]; subst.
    - destruct Hz as (b & [] & _).
    - inversion Hrest as [? ? Hw E1 E2 E3| |]; subst. rewrite Hw by reflexivity. rewrite Hg by reflexivity.
      assert (Hts : ts = [0%N]).
      { eapply placed_unique; [|exact Hp|].
        - repeat constructor; simpl; intuition discriminate.
        - exists [0%nat]. split; [reflexivity|]. repeat constructor. }
      subst ts. cbn. ceq; ring. }
  rewrite Hr by reflexivity. rewrite Hv1.
  assert (Hb1 : vb 1%N = vl 2%N) by (rewrite He by reflexivity; reflexivity).
  assert (Hv2 : vl 2%N = C0).
  { change (sc_ops Ccring x_first) with [x_op 0 []] in Hl.
    inversion Hl as [|o ops v w Hz _ E1 E2 E3|o ops ts v v' w Hz Hp Hg Hrest E1 E2 E3]; subst.
    - destruct Hz as (b & [] & _).
    - inversion Hrest as [? ? Hw E1 E2 E3| |]; subst. rewrite Hw by reflexivity. rewrite Hg by reflexivity.
      assert (Hts : ts = [0%N]).
      { eapply placed_unique; [|exact Hp|].
        - repeat constructor; simpl; intuition discriminate.
        - exists [0%nat]. split; [reflexivity|]. repeat constructor. }
      subst ts. cbn. ceq; ring. }
  rewrite Hb1, Hv2. cbn. intros H. apply (f_equal fst) in H. cbn in H. lra.
Qed.

(** The state of a circuit. *)
From Coq Require Import List NArith ZArith Arith Bool Lia Reals Lra.
From Verif Require Import Py CRing Cplx KernelModel KernelSpec KernelBits KernelProofs KernelProofs2 SimModel SimSpec
  SimReal SimProofs SimProofs2 SimProofs3 SimProofs4 SimProofs5 SimProofs6 UnitaryModel GateModel GateProofs StateModel StateSpec.
Import ListNotations.
Local Open Scope R_scope.

Lemma shape_eqb_spec a b : shape_eqb a b = true <-> a = b.
Proof. unfold shape_eqb. destruct (list_eq_dec N.eq_dec a b); split; congruence. Qed.

Lemma size_pow n : (0 < n)%N -> N.shiftl 2 (n - 1) = (2 ^ n)%N.
Proof.
  intros H. rewrite N.shiftl_mul_pow2. rewrite <- N.pow_succ_r'. f_equal. lia.
Qed.

Lemma isclose_one : isclose1 1 = true.
Proof. unfold isclose1. destruct (Rle_dec _ _) as [|H]; [reflexivity|]. exfalso. apply H. rewrite Rminus_diag_eq, Rabs_R0 by reflexivity. lra. Qed.

Lemma assert_state_ok n a : assert_state n a = Ok tt <->
  (0 < n)%N /\ right_shape n a /\ Rabs (frob a - 1) <= 1 / 100000000 + 1 / 100000.
Proof.
  unfold assert_state, right_shape. destruct (N.eqb_spec n 0) as [->|Hn]; [split; [discriminate|lia]|].
  rewrite size_pow by lia.
  destruct (shape_eqb (shape a) [2 ^ n]%N) eqn:E1; [|destruct (shape_eqb (shape a) [2 ^ n; 2 ^ n]%N) eqn:E2]; cbn [negb andb].
  - apply shape_eqb_spec in E1. unfold isclose1. destruct (Rle_dec _ _) as [H|H].
    + split; auto. intros _. split; [lia|]. split; [auto|lra].
    + split; [discriminate|]. intros (_ & _ & H'). lra.
  - apply shape_eqb_spec in E2. unfold isclose1. destruct (Rle_dec _ _) as [H|H].
    + split; auto. intros _. split; [lia|]. split; [auto|lra].
    + split; [discriminate|]. intros (_ & _ & H'). lra.
  - split; [discriminate|]. intros (_ & [H|H] & _); apply shape_eqb_spec in H; congruence.
Qed.

Lemma assert_state_err n a e : assert_state n a = Err e -> e = ValueError.
Proof.
  unfold assert_state. destruct (n =? 0)%N; [congruence|]. destruct (_ && _); [congruence|]. destruct (isclose1 _); congruence.
Qed.

Lemma is_set_spec s : match st_state s, st_dm s with None, None => false | _, _ => true end = true <-> is_set s.
Proof.
  unfold is_set. destruct (st_state s), (st_dm s); split; intros H; auto; try discriminate; try (left; discriminate);
    try (right; discriminate). destruct H as [H|H]; exfalso; now apply H.
Qed.

Theorem set_state_spec n a s : forall force s' r, set_state n a force false s = (s', r) ->
  (r = Ok tt <-> (force = true \/ ~ is_set s) /\ (0 < n)%N /\ right_shape n a /\
                 Rabs (frob a - 1) <= 1 / 100000000 + 1 / 100000) /\
  (r = Ok tt -> s' = store a) /\
  (r <> Ok tt -> s' = s /\ (r = Err CircuitError \/ r = Err ValueError)) /\
  (force = false -> is_set s -> r = Err CircuitError).
Proof.
  intros force s' r E. unfold set_state in E.
  destruct (negb force && match st_state s, st_dm s with None, None => false | _, _ => true end) eqn:Eb.
  - injection E as <- <-. apply andb_prop in Eb. destruct Eb as [Ef Es]. apply is_set_spec in Es.
    destruct force; [discriminate|]. repeat split; try discriminate; auto. intros ([H|H] & _); [discriminate|contradiction].
  - assert (Hf : force = true \/ ~ is_set s).
    { destruct force; [now left|]. right. intros H. apply is_set_spec in H. rewrite H in Eb. discriminate. }
    destruct (assert_state n a) as [[]|e] eqn:Ea; injection E as <- <-.
    + apply assert_state_ok in Ea. split; [split; [intros _; split; auto|reflexivity]|].
      split; [reflexivity|]. split; [congruence|]. intros -> Hs. destruct Hf; [discriminate|contradiction].
    + split; [split; [discriminate|]|].
      * intros (_ & H). apply assert_state_ok in H. congruence.
      * split; [discriminate|]. split; [intros _; split; [reflexivity|right]|].
        -- f_equal. now apply assert_state_err in Ea.
        -- intros -> Hs. destruct Hf; [discriminate|contradiction].
Qed.

Lemma frob_nonneg a : 0 <= frob a. Proof. apply sqrt_pos. Qed.

Lemma frob_scale a x : 0 <= x -> frob (mkArr (shape a) (fun i => Cmul (RtoC x) (data a i))) = x * frob a.
Proof.
  intros Hx. unfold frob. change (size_of (mkArr (shape a) _)) with (size_of a). cbn [data].
  transitivity (sqrt (x * x) * sqrt (Rsum (Nrange (size_of a)) (fun i => Cnorm2 (data a i))));
    [|now rewrite sqrt_square]. rewrite <- sqrt_mult_alt by nra. f_equal.
  rewrite <- Rsum_scale. apply Rsum_ext. intros i _. unfold Cnorm2, Cmul, RtoC, Re, Im. cbn. ring.
Qed.

Theorem set_state_normalize n a force s : (0 < n)%N -> right_shape n a -> frob a <> 0 ->
  (force = true \/ ~ is_set s) ->
  exists a', set_state n a force true s = (store a', Ok tt) /\ shape a' = shape a /\
    (forall i, data a' i = Cmul (RtoC (1 / frob a)) (data a i)) /\ frob a' = 1.
Proof.
  intros Hn Hs Hz Hf. unfold set_state.
  assert (Eb : negb force && match st_state s, st_dm s with None, None => false | _, _ => true end = false).
  { destruct force; [reflexivity|]. cbn [negb andb]. apply not_true_is_false. rewrite is_set_spec.
    destruct Hf; [discriminate|assumption]. }
  rewrite Eb. unfold normalise. destruct (Req_EM_T (frob a) 0); [contradiction|].
  set (a' := mkArr (shape a) (fun i => Cmul (RtoC (/ frob a)) (data a i))).
  assert (Hp : 0 < frob a) by (pose proof (frob_nonneg a); lra).
  assert (H1 : frob a' = 1).
  { unfold a'. rewrite frob_scale by (apply Rlt_le, Rinv_0_lt_compat, Hp). field. exact Hz. }
  assert (Ea : assert_state n a' = Ok tt).
  { apply assert_state_ok. split; [exact Hn|]. split; [exact Hs|]. rewrite H1, Rminus_diag_eq, Rabs_R0 by reflexivity. lra. }
  rewrite Ea. exists a'. split; [reflexivity|]. split; [reflexivity|]. split; [|exact H1].
  intros i. unfold a'. cbn [data]. do 2 f_equal. field. exact Hz.
Qed.

Theorem set_state_normalize_zero n a force s : frob a = 0 -> (force = true \/ ~ is_set s) ->
  set_state n a force true s = (s, Err ValueError).
Proof.
  intros Hz Hf. unfold set_state.
  assert (Eb : negb force && match st_state s, st_dm s with None, None => false | _, _ => true end = false).
  { destruct force; [reflexivity|]. cbn [negb andb]. apply not_true_is_false. rewrite is_set_spec.
    destruct Hf; [discriminate|assumption]. }
  rewrite Eb. unfold normalise. now destruct (Req_EM_T (frob a) 0).
Qed.

(** ** Norms *)
Lemma frob_vec d (v : N -> C) : frob (mkArr [d] v) = sqrt (Rsum (Nrange d) (fun i => Cnorm2 (v i))).
Proof. unfold frob, size_of. cbn [shape fold_right data]. now rewrite N.mul_1_r. Qed.

Lemma Rsum_app {I} (l m : list I) f : Rsum (l ++ m) f = Rsum l f + Rsum m f.
Proof.
  induction l as [|i l IH]; [rewrite app_nil_l; unfold Rsum at 2; cbn [fold_right]; ring|].
  change (f i + Rsum (l ++ m) f = f i + Rsum l f + Rsum m f). rewrite IH. ring.
Qed.

Lemma Nrange_rows d k : forall f : N -> R,
  Rsum (Nrange (k * d)) f = Rsum (Nrange k) (fun r => Rsum (Nrange d) (fun c => f (r * d + c)%N)).
Proof.
  intros f. induction k as [|k IH] using N.peano_ind; [reflexivity|].
  assert (E : Nrange (N.succ k) = Nrange k ++ [k]).
  { unfold Nrange. rewrite N2Nat.inj_succ, seq_S, map_app. cbn. now rewrite N2Nat.id. }
  rewrite E, Rsum_app. rewrite <- IH. cbn [Rsum fold_right].
  assert (E2 : Nrange (N.succ k * d) = Nrange (k * d) ++ map (fun c => (k * d + c)%N) (Nrange d)).
  { unfold Nrange. rewrite N.mul_succ_l, N2Nat.inj_add, seq_app, map_app. f_equal. rewrite map_map.
    rewrite Nat.add_0_l. clear. generalize (N.to_nat d) as e. intros e.
    replace (seq (N.to_nat (k * d)) e) with (map (fun x => (N.to_nat (k * d) + x)%nat) (seq 0 e)).
    - rewrite map_map. apply map_ext. intros x. now rewrite Nat2N.inj_add, N2Nat.id.
    - assert (G : forall b e z, map (fun x => (b + x)%nat) (seq z e) = seq (b + z) e).
      { clear. induction e as [|e IH]; intros z; cbn; [reflexivity|]. f_equal. rewrite IH. f_equal. lia. }
      rewrite G. f_equal. lia. }
  rewrite E2, Rsum_app. f_equal. rewrite Rplus_0_r.
  generalize (Nrange d) as l. induction l as [|c l IHl]; cbn; [reflexivity|].
  f_equal. exact IHl.
Qed.

(** ** Density matrices *)
Lemma Cnorm2_outer (a b : C) : Cnorm2 (Cmul a (Cconj b)) = Cnorm2 a * Cnorm2 b.
Proof. destruct a, b. unfold Cnorm2, Cmul, Cconj, Re, Im. cbn [fst snd]. ring. Qed.

Lemma frob_pure n (rho v : N -> C) :
  (forall r s, (r < 2 ^ n)%N -> (s < 2 ^ n)%N -> rho (rowcol n r s) = Cmul (v r) (Cconj (v s))) ->
  normalised n v -> frob (mkArr [2 ^ n; 2 ^ n]%N rho) = 1.
Proof.
  intros H Hv. unfold frob, size_of. cbn [shape fold_right data]. rewrite N.mul_1_r, Nrange_rows.
  rewrite <- sqrt_1. f_equal. rewrite <- Hv. unfold normalised in Hv.
  apply Rsum_ext. intros r Hr. apply In_Nrange in Hr.
  transitivity (Rsum (Nrange (2 ^ n)) (fun s => Cnorm2 (v r) * Cnorm2 (v s))).
  - apply Rsum_ext. intros s Hs. apply In_Nrange in Hs. fold (rowcol n r s). rewrite H by assumption. apply Cnorm2_outer.
  - rewrite Rsum_scale, Hv. ring.
Qed.

Lemma frob_normalised n (v : N -> C) : normalised n v -> frob (mkArr [2 ^ n]%N v) = 1.
Proof. intros H. rewrite frob_vec. unfold normalised in H. now rewrite H, sqrt_1. Qed.

Lemma close_one x : x = 1 -> Rabs (x - 1) <= 1 / 100000000 + 1 / 100000.
Proof. intros ->. rewrite Rminus_diag_eq, Rabs_R0 by reflexivity. lra. Qed.

(** set_state accepts normalised vectors and pure density matrices. *)
Theorem set_state_vec n v force s : (0 < n)%N -> normalised n v -> (force = true \/ ~ is_set s) ->
  set_state n (mkArr [2 ^ n]%N v) force false s = (mkCst (Some (mkArr [2 ^ n]%N v)) None, Ok tt).
Proof.
  intros Hn Hv Hf. destruct (set_state n (mkArr [2 ^ n]%N v) force false s) as [s' r] eqn:E.
  destruct (set_state_spec n _ s force s' r E) as (H1 & H2 & _).
  assert (Hr : r = Ok tt).
  { apply H1. split; [exact Hf|]. split; [exact Hn|]. split; [now left|]. now apply close_one, frob_normalised. }
  rewrite (H2 Hr), Hr. reflexivity.
Qed.

Theorem set_state_pure_density n rho v force s : (0 < n)%N -> normalised n v -> (force = true \/ ~ is_set s) ->
  (forall r c, (r < 2 ^ n)%N -> (c < 2 ^ n)%N -> rho (rowcol n r c) = Cmul (v r) (Cconj (v c))) ->
  set_state n (mkArr [2 ^ n; 2 ^ n]%N rho) force false s = (mkCst None (Some (mkArr [2 ^ n; 2 ^ n]%N rho)), Ok tt).
Proof.
  intros Hn Hv Hf Hr. destruct (set_state n (mkArr [2 ^ n; 2 ^ n]%N rho) force false s) as [s' r] eqn:E.
  destruct (set_state_spec n _ s force s' r E) as (H1 & H2 & _).
  assert (Ho : r = Ok tt).
  { apply H1. split; [exact Hf|]. split; [exact Hn|]. split; [now right|]. apply close_one. now apply (frob_pure n rho v). }
  rewrite (H2 Ho), Ho. reflexivity.
Qed.

Lemma num_qubits_pos (c : scirc Ccring) : wf_circ c -> (0 < num_qubits Ccring c)%N.
Proof. intros (_ & H & _). unfold num_qubits. destruct (sc_qubits Ccring c); [congruence|cbn; lia]. Qed.

Theorem simulate_sets_state rnd c le (m : mem) s : (forall k, uniform (rnd k)) ->
  wf_circ c -> unitary_circ c -> (num_qubits Ccring c <= 30)%N -> (le = true -> measurement_free c) ->
  exists m' w, simulate_set rnd c false le m s
      = (m', mkCst (Some (mkArr [2 ^ num_qubits Ccring c]%N w)) None, Ok tt) /\
    simulate_C rnd c false le m = (m', Ok (SVec Ccring w)) /\ normalised (num_qubits Ccring c) w.
Proof.
  intros Hr Hw Hu Hn Hm. destruct (simulate_normalised rnd Hr c le m Hw Hu Hn Hm) as (m' & w & E & H).
  exists m', w. split; [|auto]. unfold simulate_set. rewrite E. cbn [out_arr].
  rewrite set_state_vec; auto using num_qubits_pos.
Qed.

Theorem simulate_sets_density rnd c le (m : mem) s : (forall k, uniform (rnd k)) ->
  wf_circ c -> unitary_circ c -> measurement_free c -> (2 * num_qubits Ccring c <= 30)%N ->
  exists rho v, simulate_set rnd c true le m s
      = (m, mkCst None (Some (mkArr [2 ^ num_qubits Ccring c; 2 ^ num_qubits Ccring c]%N rho)), Ok tt) /\
    simulate_C rnd c false false m = (m, Ok (SVec Ccring v)) /\
    normalised (num_qubits Ccring c) v /\
    forall r k, (r < 2 ^ num_qubits Ccring c)%N -> (k < 2 ^ num_qubits Ccring c)%N ->
      rho (rowcol (num_qubits Ccring c) r k) = Cmul (v r) (Cconj (v k)).
Proof.
  intros Hr Hw Hu Hm Hn.
  destruct (simulate_mixed Ccring R Cgtb Cis0 Cinvsqrt rnd c m Hw Hm Hn) as (rho & v & Er & Ev & H).
  destruct (simulate_normalised rnd Hr c false m Hw Hu ltac:(lia) ltac:(discriminate)) as (m' & w & E & Hnm).
  fold simulate_C in Er, Ev. rewrite Ev in E. injection E as <- <-.
  exists rho, v. split; [|auto]. unfold simulate_set.
  change (simulate_C rnd c true le m) with (simulate_C rnd c true false m). rewrite Er. cbn [out_arr].
  rewrite (set_state_pure_density _ rho v); auto using num_qubits_pos.
Qed.

(** ** The density matrix of a state vector *)
Lemma outer_entry n v r c : (r < 2 ^ n)%N -> (c < 2 ^ n)%N ->
  data (outer (mkArr [2 ^ n]%N v)) (rowcol n r c) = Cmul (v r) (v c).
Proof.
  intros Hr Hc. unfold outer, size_of. cbn [shape fold_right data]. rewrite N.mul_1_r. unfold rowcol.
  rewrite N.div_add_l by lia. rewrite (N.div_small c) by exact Hc. rewrite N.add_0_r.
  rewrite N.add_comm, N.mod_add by lia. now rewrite N.mod_small.
Qed.

Theorem density_iff_real n v : normalised n v -> exists a,
  get_dm (mkCst (Some (mkArr [2 ^ n]%N v)) None) = (mkCst (Some (mkArr [2 ^ n]%N v)) (Some a), Some a) /\
    shape a = [2 ^ n; 2 ^ n]%N /\
    (is_projector n v a <-> forall i, (i < 2 ^ n)%N -> Im (v i) = 0).
Proof.
  intros Hv. exists (outer (mkArr [2 ^ n]%N v)). split; [reflexivity|].
  assert (Hs : shape (outer (mkArr [2 ^ n]%N v)) = [2 ^ n; 2 ^ n]%N).
  { unfold outer, size_of. cbn [shape fold_right]. now rewrite N.mul_1_r. }
  split; [exact Hs|]. split.
  - intros (_ & H) i Hi. specialize (H i i Hi Hi). rewrite outer_entry in H by assumption.
    pose proof (f_equal Re H) as H'. unfold Cmul, Cconj, Re, Im in *. cbn [fst snd] in H'. nra.
  - intros H. split; [exact Hs|]. intros r c Hr Hc. rewrite outer_entry by assumption. f_equal.
    apply C_eq; unfold Cconj; cbn [Re Im fst snd]; [reflexivity|]. unfold Im in *. cbn [snd]. rewrite (H c Hc). ring.
Qed.

(** ** Witnesses *)
(** RX(pi) on one qubit: the state (0, -i). *)
Definition rx_pi : scirc Ccring :=
  mkScirc Ccring [0%nat] [mkSop Ccring (gate_kind (GOne (GRX PI))) (Some [0%nat]) []].

Lemma rx_pi_wf : wf_circ rx_pi /\ unitary_circ rx_pi /\ measurement_free rx_pi.
Proof.
  split; [|split].
  - split; [repeat constructor; simpl; intuition discriminate|]. split; [discriminate|].
    intros o [<-|[]]. exists [0%nat]. repeat split; auto.
    + intros q Hq. exact Hq.
    + repeat constructor; auto.
    + intros k Hk. injection Hk as <-. reflexivity.
  - intros o [<-|[]]. apply gate_kind_unitary.
  - intros o [<-|[]]. reflexivity.
Qed.

Theorem density_not_projector rnd (m : mem) s : (forall k, uniform (rnd k)) ->
  exists w a, simulate_set rnd rx_pi false false m s = (m, mkCst (Some (mkArr [2]%N w)) None, Ok tt) /\
    snd (get_dm (mkCst (Some (mkArr [2]%N w)) None)) = Some a /\
    ~ is_projector 1 w a /\ data a 3%N = Copp C1.
Proof.
  intros Hr. destruct rx_pi_wf as (Hw & Hu & Hm).
  destruct (simulate_sets_state rnd rx_pi false m s Hr Hw Hu ltac:(discriminate) ltac:(discriminate)) as (m' & w & E & E' & Hn).
  destruct (simulate_runs Ccring R Cgtb Cis0 Cinvsqrt rnd rx_pi false m Hw Hm ltac:(discriminate)) as (w' & El & Hl).
  fold simulate_C in El. rewrite El in E'. injection E' as <- <-.
  change (2 ^ num_qubits Ccring rx_pi)%N with 2%N in E.
  exists w', (outer (mkArr [2]%N w')). split; [exact E|]. split; [reflexivity|].
  assert (H1 : w' 1%N = (0, -1)).
  { change (sc_ops Ccring rx_pi) with [mkSop Ccring (gate_kind (GOne (GRX PI))) (Some [0%nat]) []] in Hl.
    inversion Hl as [|o ops v x Hz _ E1 E2 E3|o ops ts v v' x Hz Hp Hg Hrest E1 E2 E3]; subst.
    - destruct Hz as (b & [] & _).
    - inversion Hrest as [? ? Hx E1 E2 E3| |]; subst. rewrite Hx by reflexivity. rewrite Hg by reflexivity.
      assert (Hts : ts = [0%N]).
      { eapply placed_unique; [|exact Hp|].
        - repeat constructor; simpl; intuition discriminate.
        - exists [0%nat]. split; [reflexivity|]. repeat constructor. }
      subst ts. cbn -[PI Rdiv cos sin]. rewrite ?cos_PI2, ?sin_PI2. ceq; ring. }
  assert (H3 : data (outer (mkArr [2]%N w')) 3%N = Copp C1).
  { cbn [outer data]. change (3 / size_of (mkArr [2%N] w'))%N with 1%N. change (3 mod size_of (mkArr [2%N] w'))%N with 1%N.
    rewrite H1. ceq; ring. }
  split; [|exact H3]. intros (_ & H). specialize (H 1%N 1%N ltac:(lia) ltac:(lia)).
  change (rowcol 1 1 1) with 3%N in H. rewrite H3, H1 in H. apply (f_equal Re) in H.
  unfold Copp, Cmul, Cconj, C1, Re, Im in H. cbn [fst snd] in H. lra.
Qed.

(** The maximally mixed state of one qubit is rejected; a matrix that is no density matrix is accepted. *)
Definition half_eye : arr := mkArr [2; 2]%N (fun i => if (i =? 0)%N || (i =? 3)%N then RtoC (1 / 2) else C0).
Definition raising : arr := mkArr [2; 2]%N (fun i => if (i =? 1)%N then C1 else C0).

Lemma half_eye_density : is_density 1 half_eye.
Proof.
  split; [reflexivity|]. split; [|split].
  - intros r c Hr Hc. destruct (two_cases r Hr) as [-> | ->], (two_cases c Hc) as [-> | ->]; cbn; ceq; ring.
  - cbn. ceq; field.
  - intros x. change (Nrange (2 ^ 1)) with [0%N; 1%N]. cbn [sumf fold_right].
    change (data half_eye (rowcol 1 0 0)) with (RtoC (1 / 2)). change (data half_eye (rowcol 1 0 1)) with C0.
    change (data half_eye (rowcol 1 1 0)) with C0. change (data half_eye (rowcol 1 1 1)) with (RtoC (1 / 2)).
    destruct (x 0%N) as [a b], (x 1%N) as [c d].
    cbn [radd r0 Ccring]. unfold Cadd, Cmul, Cconj, RtoC, C0, Re, Im. cbn [fst snd].
    match goal with |- 0 <= ?e => replace e with ((a * a + b * b + c * c + d * d) / 2) by field end. nra.
Qed.

Theorem half_eye_rejected s : set_state 1 half_eye true false s = (s, Err ValueError).
Proof.
  destruct (set_state 1 half_eye true false s) as [s' r] eqn:E.
  destruct (set_state_spec 1 half_eye s true s' r E) as (H1 & _ & H3 & _).
  assert (F : frob half_eye = sqrt (1 / 2)).
  { unfold frob. f_equal. change (Nrange (size_of half_eye)) with [0%N; 1%N; 2%N; 3%N].
    cbn [Rsum fold_right half_eye data N.eqb Pos.eqb orb]. unfold Cnorm2, RtoC, C0, Re, Im. cbn [fst snd]. field. }
  assert (Hlt : sqrt (1 / 2) < 9 / 10).
  { rewrite <- (sqrt_square (9 / 10)) by lra. apply sqrt_lt_1; lra. }
  assert (Hno : r <> Ok tt).
  { intros Hr. apply H1 in Hr. destruct Hr as (_ & _ & _ & Hr). rewrite F in Hr.
    rewrite Rabs_left in Hr by lra. lra. }
  destruct (H3 Hno) as (-> & [->| ->]); [|reflexivity].
  exfalso. unfold set_state in E. cbn [negb andb] in E.
  destruct (assert_state 1 half_eye) eqn:Ea; [discriminate|]. apply assert_state_err in Ea. subst. discriminate.
Qed.

Lemma raising_not_density : ~ is_density 1 raising.
Proof.
  intros (_ & H & _). specialize (H 0%N 1%N ltac:(lia) ltac:(lia)). cbn in H. apply (f_equal fst) in H. cbn in H. lra.
Qed.

Theorem raising_accepted s : set_state 1 raising true false s = (mkCst None (Some raising), Ok tt).
Proof.
  destruct (set_state 1 raising true false s) as [s' r] eqn:E.
  destruct (set_state_spec 1 raising s true s' r E) as (H1 & H2 & _).
  assert (Hr : r = Ok tt).
  { apply H1. split; [now left|]. split; [lia|]. split; [now right|]. apply close_one.
    unfold frob. rewrite <- sqrt_1. f_equal. change (Nrange (size_of raising)) with [0%N; 1%N; 2%N; 3%N].
    cbn [Rsum fold_right raising data N.eqb Pos.eqb]. unfold Cnorm2, C1, C0, Re, Im. cbn [fst snd]. ring. }
  rewrite (H2 Hr), Hr. reflexivity.
Qed.

(** A circuit without qubits accepts nothing. *)
Theorem no_qubits_rejected a force normalize s : snd (set_state 0 a force normalize s) <> Ok tt.
Proof.
  unfold set_state. destruct (_ && _); [discriminate|].
  destruct (if normalize then normalise a else Some a) as [a'|]; [|discriminate]. discriminate.
Qed.

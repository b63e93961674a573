(** Properties C38 and C39: density_matrix and set_state. *)
From Coq Require Import List NArith Bool Lia Reals Lra.
From Verif Require Import Py CRing Cplx KernelSpec SimModel SimSpec SimReal SimProofs5 SimProofs6 GateModel StateModel StateSpec StateProofs.
Import ListNotations.
Local Open Scope R_scope.

(** C38: the density matrix of a state vector is cached beside it; it is the projector onto the state exactly
    when all amplitudes are real.  Missing: complex amplitudes. *)
Theorem C38_density_matrix_partial :
  forall (n : N) (v : N -> C), normalised n v -> exists a,
    get_dm (mkCst (Some (mkArr [2 ^ n]%N v)) None) = (mkCst (Some (mkArr [2 ^ n]%N v)) (Some a), Some a) /\
    shape a = [2 ^ n; 2 ^ n]%N /\
    (is_projector n v a <-> forall i, (i < 2 ^ n)%N -> Im (v i) = 0).
Proof. exact density_iff_real. Qed.
Print Assumptions C38_density_matrix_partial.

Example C38_example : normalised 1 (fun i => if (i =? 0)%N then RtoC (3 / 5) else RtoC (4 / 5)).
Proof.
  unfold normalised. change (Nrange (2 ^ 1)) with [0%N; 1%N]. cbn [Rsum fold_right N.eqb]. unfold Cnorm2, RtoC, Re, Im.
  cbn [fst snd]. field.
Qed.

(** C38 is false after simulating RX(pi): the density matrix has an entry -1 on its diagonal. *)
Theorem C38_density_matrix_refuted :
  exists c : scirc Ccring, wf_circ c /\
    forall (rnd : nat -> R) (m : mem) (s : cst), (forall k, uniform (rnd k)) ->
    exists w a, simulate_set rnd c false false m s = (m, mkCst (Some (mkArr [2]%N w)) None, Ok tt) /\
      snd (get_dm (mkCst (Some (mkArr [2]%N w)) None)) = Some a /\
      ~ is_projector 1 w a /\ data a 3%N = Copp C1.
Proof. exists rx_pi. split; [apply rx_pi_wf|exact density_not_projector]. Qed.
Print Assumptions C38_density_matrix_refuted.

(** C39: which arrays are accepted, what is stored, and that a refused call changes nothing.  Missing:
    density matrices of mixed states, circuits without qubits. *)
Theorem C39_set_state_partial :
  forall (n : N) (a : arr) (s : cst) (force : bool) (s' : cst) (r : res unit),
    set_state n a force false s = (s', r) ->
    (r = Ok tt <-> (force = true \/ ~ is_set s) /\ (0 < n)%N /\ right_shape n a /\
                   Rabs (frob a - 1) <= 1 / 100000000 + 1 / 100000) /\
    (r = Ok tt -> s' = store a) /\
    (r <> Ok tt -> s' = s /\ (r = Err CircuitError \/ r = Err ValueError)) /\
    (force = false -> is_set s -> r = Err CircuitError).
Proof. exact set_state_spec. Qed.
Print Assumptions C39_set_state_partial.

Theorem C39_normalised_vectors :
  forall (n : N) (v : N -> C) (force : bool) (s : cst),
    (0 < n)%N -> normalised n v -> (force = true \/ ~ is_set s) ->
    set_state n (mkArr [2 ^ n]%N v) force false s = (mkCst (Some (mkArr [2 ^ n]%N v)) None, Ok tt).
Proof. exact set_state_vec. Qed.
Print Assumptions C39_normalised_vectors.

Theorem C39_pure_density_matrices :
  forall (n : N) (rho v : N -> C) (force : bool) (s : cst),
    (0 < n)%N -> normalised n v -> (force = true \/ ~ is_set s) ->
    (forall r c, (r < 2 ^ n)%N -> (c < 2 ^ n)%N -> rho (rowcol n r c) = Cmul (v r) (Cconj (v c))) ->
    set_state n (mkArr [2 ^ n; 2 ^ n]%N rho) force false s = (mkCst None (Some (mkArr [2 ^ n; 2 ^ n]%N rho)), Ok tt).
Proof. exact set_state_pure_density. Qed.
Print Assumptions C39_pure_density_matrices.

(** [normalize] rescales to norm 1 and the result is always accepted; only the zero array cannot be
    rescaled. *)
Theorem C39_normalize :
  forall (n : N) (a : arr) (force : bool) (s : cst),
    (0 < n)%N -> right_shape n a -> frob a <> 0 -> (force = true \/ ~ is_set s) ->
    exists a', set_state n a force true s = (store a', Ok tt) /\ shape a' = shape a /\
      (forall i, data a' i = Cmul (RtoC (1 / frob a)) (data a i)) /\ frob a' = 1.
Proof. exact set_state_normalize. Qed.
Print Assumptions C39_normalize.

Theorem C39_normalize_zero :
  forall (n : N) (a : arr) (force : bool) (s : cst),
    frob a = 0 -> (force = true \/ ~ is_set s) -> set_state n a force true s = (s, Err ValueError).
Proof. exact set_state_normalize_zero. Qed.
Print Assumptions C39_normalize_zero.

Example C39_example :
  ~ is_set cst0 /\ right_shape 1 half_eye /\ normalised 1 (fun i => if (i =? 0)%N then RtoC (3 / 5) else RtoC (4 / 5)).
Proof.
  split; [intros [H|H]; now apply H|]. split; [now right|exact C38_example].
Qed.

(** C39 is false: the maximally mixed state is refused, a matrix that is no density matrix is accepted, and
    a circuit without qubits accepts nothing. *)
Theorem C39_density_matrices_refuted :
  (exists a, is_density 1 a /\ forall s, set_state 1 a true false s = (s, Err ValueError)) /\
  (exists a, shape a = [2; 2]%N /\ ~ is_density 1 a /\
     forall s, set_state 1 a true false s = (mkCst None (Some a), Ok tt)) /\
  (forall a force normalize s, snd (set_state 0 a force normalize s) <> Ok tt).
Proof.
  split; [exists half_eye; split; [exact half_eye_density|exact half_eye_rejected]|].
  split; [exists raising; split; [reflexivity|split; [exact raising_not_density|exact raising_accepted]]|].
  exact no_qubits_rejected.
Qed.
Print Assumptions C39_density_matrices_refuted.

(** Properties C31, C32 and C33: gate matrices, decompositions and controlled gates. *)
From Coq Require Import List ZArith NArith Bool Lia Reals Lra.
From Verif Require Import Py CRing Cplx KernelSpec SimModel SimSpec SimProofs UnitaryModel UnitarySpec
  GateModel GateProofs GateProofs2 GateProofs3.
Import ListNotations.
Local Open Scope N_scope.

(** C31: every library gate has a matrix, of dimension two to its number of qubits, and the matrix times its
    adjoint is the identity in both orders, for all real parameters. *)
Theorem C31_gate_matrices_unitary :
  forall g : gate, exists d M, gate_matrix g = Ok (d, M) /\ d = 2 ^ qubits_of g /\
    (forall i j, i < d -> j < d ->
       @sumf Ccring N (Nrange d) (fun s => Cmul (Cconj (M s i)) (M s j)) = if i =? j then C1 else C0) /\
    (forall i j, i < d -> j < d ->
       @sumf Ccring N (Nrange d) (fun s => Cmul (M i s) (Cconj (M j s))) = if i =? j then C1 else C0).
Proof. exact gate_unitary_full. Qed.
Print Assumptions C31_gate_matrices_unitary.

Example C31_example : exists M, gate_matrix (GC (GRX PI)) = Ok (4, M) /\ M 3 3 = (cos (PI / 2), 0)%R.
Proof. eexists. split; [reflexivity|]. simpl. ceq; ring. Qed.

(** C32: the matrix of every gate is the operator the simulator applies for it, on qubits 0, 1, 2. *)
Theorem C32_matrix_is_simulated_action :
  forall (g : gate) (v : N -> C), exists M,
    gate_matrix g = Ok (2 ^ qubits_of g, M) /\
    forall i, i < 2 ^ qubits_of g ->
      @mat_vec Ccring (qubits_of g) M v i
      = @gate_action Ccring false (qubits_of g) (gate_kind g) (Nrange (qubits_of g)) v i.
Proof. exact gate_matrix_action. Qed.
Print Assumptions C32_matrix_is_simulated_action.

(** C32: performing the steps of a listed decomposition one after the other acts as the gate, on any
    distinct qubits of a state of any size, in both byte orders, for all real parameters. *)
Theorem C32_decompositions :
  forall (g : gate) (steps : list (gate * list nat)), decomposition g = Some steps ->
    forall (le : bool) (n : N) (ts : list N) (v : N -> C) (i : N),
      length ts = N.to_nat (qubits_of g) -> NoDup ts -> (forall t, In t ts -> t < n) -> i < 2 ^ n ->
      act_steps le n steps ts v i = @gate_action Ccring le n (gate_kind g) ts v i.
Proof.
  exact (fun g steps H le n ts v i Hl Hn Ht Hi => decomposition_correct g steps H le n ts v i Hl (conj Hn Ht) Hi).
Qed.
Print Assumptions C32_decompositions.

(** C32, as matrix identities. *)
Theorem C32_matrix_identities :
  (forall i j, i < 2 -> j < 2 ->
     matmul Ccring 2 (matrix1 GHadamard) (matmul Ccring 2 (matrix1 GX) (matrix1 GHadamard)) i j = matrix1 GZ i j) /\
  (forall b g d i j, i < 2 -> j < 2 ->
     matmul Ccring 2 (matrix1 (GRZ d)) (matmul Ccring 2 (matrix1 (GRY g)) (matrix1 (GRZ b))) i j
     = matrix1 (GRotation b g d) i j).
Proof. exact (conj matmul_zhxh matmul_rot). Qed.
Print Assumptions C32_matrix_identities.

(** The decomposition of CSWAP on qubits 2, 0, 3 of four, on a basis state. *)
Example C32_example :
  decomposition GCSWAP = Some [(GC GX, [2; 1]%nat); (GCCX, [0; 1; 2]%nat); (GC GX, [2; 1]%nat)] /\
  NoDup [2; 0; 3] /\ @gate_action Ccring false 4 (gate_kind GCSWAP) [2; 0; 3] (fun i => if i =? 10 then C1 else C0) 3 = C1.
Proof.
  split; [reflexivity|]. split; [repeat constructor; simpl; intuition discriminate|reflexivity].
Qed.

(** C33: outside of a context the matrix of every controlled gate is the identity where the control is 0 and
    the matrix of the target gate where it is 1; [2 * a + s] is the basis index with control [a], target
    [s]. *)
Theorem C33_controlled_blocks :
  forall g : gate1, exists M, gate_matrix (GC g) = Ok (4, M) /\
    forall a b s t, a < 2 -> b < 2 -> s < 2 -> t < 2 ->
      M (2 * a + s) (2 * b + t)
      = if a =? b then if a =? 1 then matrix1 g s t else if s =? t then C1 else C0 else C0.
Proof. exact controlled_blocks. Qed.
Print Assumptions C33_controlled_blocks.

(** C33 for any number of controls, read on the class (unless parametric) or on any instance. *)
Theorem C33_controlled_any_number :
  forall (par : bool) (nc : nat) (u : cmat) (a : access), (par = true -> a <> OnClass) ->
    exists M, controlled_matrix par nc 1 2 u None a = Ok (Some (Z.of_nat (nc + 1), M)) /\
      forall i j, i < 2 ^ N.of_nat (nc + 1) -> j < 2 ^ N.of_nat (nc + 1) ->
        M i j = @ctrl_entry Ccring (N.of_nat (nc + 1)) (map N.of_nat (seq 0 nc)) (N.of_nat nc) u i j.
Proof. exact controlled_matrix_correct. Qed.
Print Assumptions C33_controlled_any_number.

(** C33 inside a context: the indices of the circuit's qubits are used with the dimension of the gate.  The
    result is the operator between those circuit positions when they all fit into the gate's own number of
    qubits, and otherwise the read raises ValueError. *)
Theorem C33_controlled_in_context_partial :
  forall (qs : list nat) (nc : nat) (u : cmat) (cs : list nat) (q : nat) (ps : list N) (t : N),
    NoDup qs -> (0 < nc)%nat -> length cs = nc -> NoDup (q :: cs) ->
    Forall2 (at_pos qs) cs ps -> at_pos qs q t ->
    ((forall p, In p (t :: ps) -> p <= N.of_nat nc) ->
       exists M, controlled_matrix false nc 1 2 u (Some qs) (OnInstance (Some cs) (Some [q]))
                   = Ok (Some (Z.of_nat (nc + 1), M)) /\
         forall i j, i < 2 ^ N.of_nat (nc + 1) -> j < 2 ^ N.of_nat (nc + 1) ->
           M i j = @ctrl_entry Ccring (N.of_nat (nc + 1)) ps t u i j) /\
    ((exists p, In p (t :: ps) /\ N.of_nat nc < p) ->
       controlled_matrix false nc 1 2 u (Some qs) (OnInstance (Some cs) (Some [q])) = Err ValueError).
Proof. exact controlled_matrix_context. Qed.
Print Assumptions C33_controlled_in_context_partial.

Example C33_context_example :
  NoDup [7; 8; 9]%nat /\ Forall2 (at_pos [7; 8; 9]%nat) [8%nat] [1] /\ at_pos [7; 8; 9]%nat 7%nat 0.
Proof.
  split; [repeat constructor; simpl; intuition discriminate|]. split; [repeat constructor|reflexivity].
Qed.

(** C33 is false inside a context: a CX on the last two of three qubits has no matrix there, a CX on qubits
    1 and 0 has its control and target exchanged, a parametric gate and the class have no matrix at all. *)
Theorem C33_in_context_refuted :
  exists qs : list nat,
    controlled_matrix false 1 1 2 (matrix1 GX) (Some qs) (OnInstance (Some [8%nat]) (Some [9%nat])) = Err ValueError /\
    (exists M, controlled_matrix false 1 1 2 (matrix1 GX) (Some qs) (OnInstance (Some [8%nat]) (Some [7%nat]))
                 = Ok (Some (2%Z, M)) /\ M 2 3 <> C1) /\
    (forall th, controlled_matrix true 1 1 2 (matrix1 (GRX th)) (Some qs)
                  (OnInstance (Some [7%nat]) (Some [8%nat])) = Err TypeError) /\
    controlled_matrix false 1 1 2 (matrix1 GX) (Some qs) OnClass = Err AttributeError.
Proof.
  exists [7; 8; 9]%nat. split; [reflexivity|]. split; [|split; reflexivity].
  eexists. split; [reflexivity|]. simpl. intros H. apply (f_equal fst) in H. simpl in H. lra.
Qed.
Print Assumptions C33_in_context_refuted.

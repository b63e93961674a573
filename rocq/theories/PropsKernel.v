(** Properties C27 and C28: the generated simulator loops. *)
From Coq Require Import List NArith ZArith Bool Lia Permutation.
From Verif Require Import CRing KernelModel KernelSpec KernelProofs KernelProofs2 KernelProofs3.
Import ListNotations.
Local Open Scope N_scope.

(** C27: for distinct valid qubits the generated loop computes exactly the (controlled) operator,
    whatever the gate, however many targets and controls it has, in both byte orders, with or without a
    scale factor, and changes nothing behind the vector. *)
Theorem C27_kernel_is_operator :
  forall (K : cring) (le : bool) (n : N) (targets controls : list N)
         (g : N -> N -> entry K) (scale : option K) (v : N -> K),
    n <= 30 ->
    (forall q, In q (targets ++ controls) -> q < n) ->
    NoDup (targets ++ controls) ->
    exists v', kernel (mkParams le n targets controls) g scale v = Some v' /\
      (forall i, i < 2 ^ n ->
         v' i = op_apply le n
                  (fun s t => match scale with
                              | Some f => rmul f (entry_val (g s t))
                              | None => entry_val (g s t)
                              end) targets controls v i) /\
      (forall i, 2 ^ n <= i -> v' i = v i).
Proof. exact (fun K le n ts cs g scale v => kernel_correct K (mkParams le n ts cs) g scale v). Qed.
Print Assumptions C27_kernel_is_operator.

(** The specification [op_apply] is the tensor-product action: on a product state a one-qubit gate
    multiplies the factor of its own qubit and leaves the other factors alone. *)
Theorem C27_operator_on_product_states :
  forall (K : cring) (le : bool) (n : N) (G : N -> N -> K) (t : N) (a : N -> bool -> K) (i : N),
    t < n ->
    op_apply le n G [t] [] (product_state le n a) i
    = product_state le n
        (fun q b => if q =? t
                    then radd (rmul (G (N.b2n b) 0) (a t false)) (rmul (G (N.b2n b) 1) (a t true))
                    else a q b) i.
Proof. exact op_apply_product. Qed.
Print Assumptions C27_operator_on_product_states.

(** The norm-collecting variant returns the squared norm of the part of the result with all controls
    set. *)
Theorem C27_norm_kernel :
  forall (K : cring) (le : bool) (n : N) (targets controls : list N) (g : N -> N -> entry K) (v : N -> K),
    n <= 30 ->
    (forall q, In q (targets ++ controls) -> q < n) ->
    NoDup (targets ++ controls) ->
    kernel_norm (mkParams le n targets controls) g v = Some
      (sumf (filter (fun i => forallb (qbit le n i) controls) (Nrange (2 ^ n)))
            (fun i => rnorm (op_apply le n (fun s t => entry_val (g s t)) targets controls v i))).
Proof. exact (fun K le n ts cs g v => kernel_norm_correct K (mkParams le n ts cs) g v). Qed.
Print Assumptions C27_norm_kernel.

(** Three qubits, big-endian, a matrix with different entries on qubit 2 controlled by qubit 0. *)
Example C27_example :
  let g : N -> N -> entry Zcring := runtime_gate (K := Zcring) (fun i j => Z.of_N (1 + 2 * i + j)) in
  let v : N -> Zcring := fun i => Z.of_N (i * i) in
  NoDup ([2] ++ [0]) /\
  option_map (fun v' => map v' (Nrange 9)) (kernel (K := Zcring) (mkParams false 3 [2] [0]) g None v)
  = Some [0; 1; 4; 9; 66; 148; 134; 304; 64]%Z.
Proof.
  split; [|vm_compute; reflexivity]. repeat constructor; simpl; intuition discriminate.
Qed.

(** C28: nothing outside the vector is written and nothing outside influences the result, for all valid
    qubits, repeated or not. *)
Theorem C28_stays_in_bounds :
  forall (K : cring) (P : params) (g : N -> N -> entry K) (scale : option K) (v w : N -> K),
    p_n P <= 30 ->
    (forall q, In q (p_targets P ++ p_controls P) -> q < p_n P) ->
    (forall i, i < 2 ^ p_n P -> v i = w i) ->
    exists v' w', kernel P g scale v = Some v' /\ kernel P g scale w = Some w' /\
      (forall i, 2 ^ p_n P <= i -> v' i = v i) /\
      (forall i, i < 2 ^ p_n P -> v' i = w' i).
Proof. exact kernel_footprint. Qed.
Print Assumptions C28_stays_in_bounds.

(** Every index read or written in an iteration is in bounds, and two iterations share none. *)
Theorem C28_indices_in_bounds_and_disjoint :
  forall (K : cring) (P : params) (g : N -> N -> entry K) (skip_identity skip_zeros : bool) (b c i : N),
    (forall q, In q (p_targets P ++ p_controls P) -> q < p_n P) ->
    b < iterations P ->
    In i (touched P g skip_identity skip_zeros b) ->
    i < 2 ^ p_n P /\ (In i (touched P g skip_identity skip_zeros c) -> b = c).
Proof.
  exact (fun K P g si sz b c i H Hb Hi =>
    conj (touched_lt K P g si sz b i H Hb Hi) (touched_disjoint K P g si sz b c i Hi)).
Qed.
Print Assumptions C28_indices_in_bounds_and_disjoint.

(** The iterations can be executed in any order with the same result. *)
Theorem C28_any_order :
  forall (K : cring) (P : params) (g : N -> N -> entry K) (scale : option K) (v : N -> K)
         (order : list N) (v' : N -> K),
    Permutation order (Nrange (iterations P)) ->
    kernel P g scale v = Some v' ->
    forall i, v' i =
      fold_left (body P g (output_states (size P) g
                   (match scale with None => true | Some _ => false end) false) scale) order v i.
Proof. exact kernel_order. Qed.
Print Assumptions C28_any_order.

(** Repeated qubit: still within the eight amplitudes, although the result is not a controlled gate. *)
Example C28_example :
  let P := mkParams false 3 [1] [1] in
  iterations P = 2 /\
  map (touched P (runtime_gate (K := Zcring) (fun _ _ => 1%Z)) true false) (Nrange 2)
  = [[2; 2; 2; 2]; [3; 3; 3; 3]].
Proof. vm_compute. split; reflexivity. Qed.

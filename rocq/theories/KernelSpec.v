(** The mathematical action of a (controlled) operator on an n-qubit state, by basis index. *)
From Coq Require Import List NArith Bool.
From Verif Require Import CRing.
Import ListNotations.
Local Open Scope N_scope.

(** Where the bit of qubit [q] sits in a basis index: qubit 0 is the most significant bit in
    big-endian order and the least significant one in little-endian order. *)
Definition bitpos (le : bool) (n q : N) : N := if le then q else n - 1 - q.

(** The bit of qubit [q] in basis index [i]. *)
Definition qbit (le : bool) (n i q : N) : bool := N.testbit i (bitpos le n q).

(** Index [i] with the bit of qubit [q] replaced. *)
Definition qset (le : bool) (n i q : N) (b : bool) : N :=
  if b then N.setbit i (bitpos le n q) else N.clearbit i (bitpos le n q).

(** The value of the target qubits in [i] as a row number of the gate: target 0 is the lowest bit. *)
Fixpoint read (le : bool) (n i : N) (targets : list N) : N :=
  match targets with
  | [] => 0
  | q :: qs => N.b2n (qbit le n i q) + 2 * read le n i qs
  end.

(** Index [i] with the target qubits set to the bits of [s]. *)
Fixpoint write (le : bool) (n i : N) (targets : list N) (s : N) : N :=
  match targets with
  | [] => i
  | q :: qs => qset le n (write le n i qs (N.div2 s)) q (N.odd s)
  end.

Section Spec.
Context {K : cring}.

(** Amplitude [i] of (controlled-G) applied to [v]. *)
Definition op_apply (le : bool) (n : N) (G : N -> N -> K) (targets controls : list N) (v : N -> K)
  : N -> K :=
  fun i =>
    if forallb (qbit le n i) controls
    then sumf (Nrange (2 ^ N.of_nat (length targets)))
              (fun s => rmul (G (read le n i targets) s) (v (write le n i targets s)))
    else v i.

(** Sum of the squared moduli of all amplitudes. *)
Definition norm2 (n : N) (v : N -> K) : K := sumf (Nrange (2 ^ n)) (fun i => rnorm (v i)).

(** A matrix is unitary: its columns are orthonormal. *)
Definition unitary (size : N) (G : N -> N -> K) : Prop :=
  forall i j, i < size -> j < size ->
    sumf (Nrange size) (fun s => rmul (rconj (G s i)) (G s j)) = if i =? j then r1 else r0.

End Spec.

(** Bit reversal of an n-bit index. *)
Definition bitrev (n i : N) : N :=
  fold_right (fun p acc => if N.testbit i p then N.setbit acc (n - 1 - p) else acc) 0 (Nrange n).

(** Inner product of two state vectors. *)
Definition inner {K : cring} (n : N) (v w : N -> K) : K :=
  sumf (Nrange (2 ^ n)) (fun i => rmul (rconj (v i)) (w i)).

(** The basis index of row [r], column [c] of a [2^n] by [2^n] matrix stored row by row. *)
Definition rowcol (n r c : N) : N := r * 2 ^ n + c.

(** The amplitude of the tensor product of single-qubit states [a 0], ..., [a (n-1)]: the product over
    all qubits of the component picked by the bit of that qubit. *)
Definition prodf {K : cring} {I} (l : list I) (f : I -> K) : K :=
  fold_right (fun i acc => rmul (f i) acc) r1 l.
Definition product_state {K : cring} (le : bool) (n : N) (a : N -> bool -> K) : N -> K :=
  fun i => prodf (Nrange n) (fun q => a q (qbit le n i q)).

(** Model of dwave/gate/tools/unitary.py.

    Matrices are functions from row and column to ring elements together with their dimension where the
    code looks at it.  Integers are unbounded; exact arithmetic. *)
From Coq Require Import List ZArith NArith Bool Lia.
From Verif Require Import Py CRing SimModel.
Import ListNotations.
Local Open Scope Z_scope.

(** list.insert(idx, x) *)
Definition py_insert {A} (l : list A) (idx : Z) (x : A) : list A :=
  let n := Z.of_nat (length l) in
  let i := if idx <? 0 then Z.max 0 (n + idx) else Z.min idx n in
  firstn (Z.to_nat i) l ++ x :: skipn (Z.to_nat i) l.

(** sorted() on pairs of an integer and a string; ties keep their order, which the string decides:
    "0" comes before "1". *)
Definition pair_leb (a b : Z * bool) : bool :=
  (fst a <? fst b) || ((fst a =? fst b) && (negb (snd a) || snd b)).

Fixpoint insert_pair (a : Z * bool) (l : list (Z * bool)) : list (Z * bool) :=
  match l with
  | [] => [a]
  | b :: l' => if pair_leb a b then a :: b :: l' else b :: insert_pair a l'
  end.
Definition sort_pairs (l : list (Z * bool)) : list (Z * bool) := fold_right insert_pair [] l.

(** itertools.product(["0", "1"], repeat=k) *)
Fixpoint bitstrings (k : nat) : list (list bool) :=
  match k with
  | O => [[]]
  | S k' => map (cons false) (bitstrings k') ++ map (cons true) (bitstrings k')
  end.

(** int("".join(bits), 2) *)
Definition int_of_bits (l : list bool) : N := fold_left (fun acc b => 2 * acc + N.b2n b)%N l 0%N.

Fixpoint list_max (l : list Z) : option Z :=
  match l with
  | [] => None
  | x :: l' => match list_max l' with None => Some x | Some m => Some (Z.max x m) end
  end.

Section Unitary.
Variable K : cring.
Notation mat := (N -> N -> K).

Definition eye : mat := fun i j => if (i =? j)%N then r1 else r0.

(** [state[i0], state[i1] = unitary @ [state[i0], state[i1]]] (unitary.py:172-175): both rows are computed
    first, then row [i0] is stored and then row [i1]. *)
Definition set_rows (u : mat) (i0 i1 : N) (s : mat) : mat :=
  let r0 := fun j => radd (rmul (u 0%N 0%N) (s i0 j)) (rmul (u 0%N 1%N) (s i1 j)) in
  let r1 := fun j => radd (rmul (u 1%N 0%N) (s i0 j)) (rmul (u 1%N 1%N) (s i1 j)) in
  fun i j => if (i =? i1)%N then r1 j else if (i =? i0)%N then r0 j else s i j.

(** One iteration (unitary.py:157-175). *)
Definition bcu_step (u : mat) (control target : list Z) (s : mat) (bitstring : list bool) : mat :=
  let qubits := sort_pairs (map (fun c => (c, true)) control ++ map (fun t => (t, false)) target) in
  let cb := fold_left (fun l p => py_insert l (fst p) (snd p)) qubits bitstring in
  let tb := fold_left (fun l p => py_insert l (fst p) true) qubits bitstring in
  set_rows u (int_of_bits cb) (int_of_bits tb) s.

(** build_controlled_unitary (unitary.py:116-177) for lists of indices; [dim] is the dimension of
    [unitary], [num_qubits] is [None] when the argument is left out.  Returns the number of qubits and
    the matrix. *)
Definition build_controlled_unitary (control target : list Z) (dim : N) (u : mat) (num_qubits : option Z)
  : res (Z * mat) :=
  if existsb (fun c => existsb (Z.eqb c) target) control then Err ValueError else
  match list_max (control ++ target) with
  | None => Err ValueError                                        (* max() of nothing *)
  | Some max_ =>
      if match num_qubits with Some n => n <=? max_ | None => false end then Err ValueError else
      if negb (Nat.eqb (length target) 1) then Err NotImplementedError else
      let n := match num_qubits with Some n => if n =? 0 then max_ + 1 else n | None => max_ + 1 end in
      if n <? 0 then Err TypeError else                            (* np.eye(0.5) *)
      let rep := n - (Z.of_nat (length control) + Z.of_nat (length target)) in
      if rep <? 0 then Err ValueError else
      if negb (dim =? 2)%N then Err ValueError else                (* matmul: mismatch *)
      Ok (n, fold_left (bcu_step u control target) (bitstrings (Z.to_nat rep)) eye)
  end.

(** ** build_unitary *)

(** np.kron for square matrices; [b] is the dimension of the second one. *)
Definition kron (b : N) (A B : mat) : mat :=
  fun i j => rmul (A (i / b) (j / b))%N (B (i mod b) (j mod b))%N.

(** [A @ B] for square matrices of dimension [d]. *)
Definition matmul (d : N) (A B : mat) : mat :=
  fun i j => sumf (Nrange d) (fun k => rmul (A i k) (B k j)).

(** The operations build_unitary can handle: operations without a [control] attribute, with their
    [num_qubits], and controlled operations.  The matrix of the target operation is [None] for parametric
    controlled operations, because the attribute is read from the class (mixedproperty.py:119-121). *)
Inductive uop :=
| USingle (num_qubits : N) (m : mat) (qubits : option (list nat))
| UControlled (dim : N) (m : option mat) (control target : list nat).

(** _apply_single_qubit_gate (unitary.py:66-88): the loop over [qubits[1:]]; [d] is 2**op.num_qubits.
    The dimension of the result comes back with it. *)
Definition is_first (q : nat) (oq : option (list nat)) : bool :=
  match oq with Some (p :: _) => Nat.eqb p q | _ => false end.

Fixpoint kron_all (d : N) (m : mat) (oq : option (list nat)) (qs : list nat) (acc : N * mat) : N * mat :=
  match qs with
  | [] => acc
  | q :: qs' =>
      let (a, A) := acc in
      kron_all d m oq qs' ((a * d)%N, kron d A (if is_first q oq then m else eye))
  end.

Definition apply_single (dim : N) (state : mat) (nq : N) (m : mat) (oq : option (list nat)) (qs : list nat)
  : res mat :=
  match qs with
  | [] => match oq with
          | Some (_ :: _) => Err IndexError                          (* qubits[0] *)
          | _ => if (2 ^ nq =? dim)%N then Ok (matmul dim eye state) else Err ValueError
          end
  | q :: qs' =>
      let '(a, A) := kron_all (2 ^ nq)%N m oq qs' ((2 ^ nq)%N, if is_first q oq then m else eye) in
      if (a =? dim)%N then Ok (matmul dim A state) else Err ValueError   (* matmul: mismatch *)
  end.

Definition indices (qs : list nat) (l : list nat) : res (list Z) :=
  mapM (fun q => match index_of q qs with Some i => Ok (Z.of_nat i) | None => Err ValueError end) l.

(** _apply_controlled_gate (unitary.py:91-108) *)
Definition apply_controlled (dim : N) (state : mat) (d : N) (m : option mat) (control target qs : list nat)
  : res mat :=
  let? ci := indices qs control in
  let? ti := indices qs target in
  match m with
  | None =>
      (* the checks of build_controlled_unitary come first, then [None @ ...] *)
      let? _ := build_controlled_unitary ci ti 2 eye (Some (Z.of_nat (length qs))) in Err TypeError
  | Some u =>
      let? (_, M) := build_controlled_unitary ci ti d u (Some (Z.of_nat (length qs))) in
      Ok (matmul dim M state)
  end.

(** The loop of build_unitary (unitary.py:53-62). *)
Fixpoint bu_loop (dim : N) (qs : list nat) (ops : list uop) (state : mat) : res mat :=
  match ops with
  | [] => Ok state
  | o :: ops' =>
      let? s := match o with
                | USingle nq m oq => apply_single dim state nq m oq qs
                | UControlled d m c t => apply_controlled dim state d m c t qs
                end in
      bu_loop dim qs ops' s
  end.

Definition build_unitary (qs : list nat) (ops : list uop) : res mat :=
  bu_loop (2 ^ N.of_nat (length qs))%N qs ops eye.
End Unitary.

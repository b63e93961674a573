(** Model of the C++ functions that dwave/gate/simulator/operation_generation.py generates, and of
    the generator's decisions. *)
From Coq Require Import List NArith Bool.
From Verif Require Import CRing.
Import ListNotations.
Local Open Scope N_scope.

(** An entry of a gate matrix as the generator sees it: the constant 0, the constant 1, or some other
    constant or a variable whose value is only known at run time. *)
Inductive entry (K : cring) := E0 | E1 | EV (a : K).
Arguments E0 {K}. Arguments E1 {K}. Arguments EV {K}.

Definition entry_val {K : cring} (e : entry K) : K :=
  match e with E0 => r0 | E1 => r1 | EV a => a end.

Definition is_E0 {K : cring} (e : entry K) : bool := match e with E0 => true | _ => false end.
Definition is_E1 {K : cring} (e : entry K) : bool := match e with E1 => true | _ => false end.

(** operation_generation.py:24-26: bit [j] of [i]. *)
Definition binary (i : N) (nt : nat) : list bool := map (fun j => N.testbit i (N.of_nat j)) (seq 0 nt).

Section Kernel.
Context {K : cring}.

Notation gate := (N -> N -> entry K).

(** compile_gate (operation_generation.py:29-82): the positions of the non-zero entries of a row. *)
Definition nonzero (size : N) (g : gate) (i : N) : list N :=
  filter (fun j => negb (is_E0 (g i j))) (Nrange size).

Definition row_is_identity (size : N) (g : gate) (i : N) : bool :=
  (match nonzero size g i with [j] => j =? i | _ => false end) && is_E1 (g i i).

Definition row_is_zero (size : N) (g : gate) (i : N) : bool :=
  match nonzero size g i with [] => true | _ => false end.

(** operation_generation.py:64-74; the returned list is sorted. *)
Definition output_states (size : N) (g : gate) (skip_identity skip_zeros : bool) : list N :=
  filter (fun i => negb (skip_identity && row_is_identity size g i)
                   && negb (skip_zeros && row_is_zero size g i)) (Nrange size).

(** operation_generation.py:76-80 *)
Definition instructions (size : N) (g : gate) (i : N) : list (N * entry K) :=
  map (fun j => (j, g i j)) (nonzero size g i).

(** operation_generation.py:78-79, as a sorted list. *)
Definition dependent_states (size : N) (g : gate) (outs : list N) : list N :=
  filter (fun j => existsb (fun i => negb (is_E0 (g i j))) outs) (Nrange size).

(** qubit_index (operation_generation.py:188-191). *)
Definition qubit_index (le : bool) (n q : N) : N := if le then q else n - q - 1.

(** std::sort (operation_generation.py:313-317). *)
Fixpoint insert (x : N) (l : list N) : list N :=
  match l with
  | [] => [x]
  | y :: l' => if x <=? y then x :: l else y :: insert x l'
  end.
Definition sort (l : list N) : list N := fold_right insert [] l.

(** operation_generation.py:320-323 *)
Definition mask (p : N) : N := N.shiftl 1 p - 1.

(** operation_generation.py:343-348 *)
Definition spread (bt m : N) : N := N.lor (N.shiftl (N.ldiff bt m) 1) (N.land bt m).

(** operation_generation.py:339-352 for one iteration, before the control bits. *)
Definition template (masks : list N) (partial_basis : N) : N := fold_left spread masks partial_basis.

(** operation_generation.py:254-257 *)
Definition control_mask (le : bool) (n : N) (controls : list N) : N :=
  fold_left N.lor (map (fun c => N.shiftl 1 (qubit_index le n c)) controls) 0.

(** operation_generation.py:260-271 *)
Definition target_mask (le : bool) (n : N) (targets : list N) (st : N) : N :=
  fold_left N.lor
    (map (fun bt => N.shiftl (N.b2n (fst bt)) (qubit_index le n (snd bt)))
         (combine (binary st (length targets)) targets)) 0.

(** Memory: the amplitude stored at an index. *)
Definition vec := N -> K.
Definition upd (v : vec) (i : N) (a : K) : vec := fun j => if j =? i then a else v j.

(** multiply_val_and_amps (operation_generation.py:275-287): [" + ".join(terms)] associates to the
    left; without terms the result is 0.0. *)
Definition multiply (ins : list (N * entry K)) (amp : N -> K) : K :=
  let terms := flat_map (fun se => match snd se with
                                   | E1 => [amp (fst se)]
                                   | E0 => []
                                   | EV a => [rmul a (amp (fst se))]
                                   end) ins in
  match terms with
  | [] => r0
  | t :: ts => fold_left radd ts t
  end.

Record params := mkParams {
  p_le : bool;                 (* little_endian *)
  p_n : N;                     (* num_qubits *)
  p_targets : list N;
  p_controls : list N
}.

Definition nt (P : params) : N := N.of_nat (length (p_targets P)).
Definition nc (P : params) : N := N.of_nat (length (p_controls P)).
Definition size (P : params) : N := N.shiftl 1 (nt P).

(** operation_generation.py:306-323 *)
Definition masks (P : params) : list N :=
  map mask (sort (map (qubit_index (p_le P) (p_n P)) (p_targets P ++ p_controls P))).

(** The index used for sub state [st] in one iteration (operation_generation.py:339-362). *)
Definition state_index (P : params) (b st : N) : N :=
  N.lor (N.lor (template (masks P) b) (control_mask (p_le P) (p_n P) (p_controls P)))
        (target_mask (p_le P) (p_n P) (p_targets P) st).

(** One iteration of the loop body without norm collection (operation_generation.py:364-395).
    [scale] is the amplitude factor if there is one. *)
Definition body (P : params) (g : gate) (outs : list N) (scale : option K) (v : vec) (b : N) : vec :=
  let amp st := v (state_index P b st) in
  let result i :=
    let r := multiply (instructions (size P) g i) amp in
    match scale with Some f => rmul f r | None => r end in
  fold_left (fun v' i => upd v' (state_index P b i) (result i)) outs v.

(** operation_generation.py:250-252 *)
Definition iterations (P : params) : N := N.shiftr (N.shiftl 1 (p_n P)) (nt P + nc P).

(** The generated function with [void] result.  [1 << num_qubits] is an [int] shift, undefined from
    31 on: the result is then [None]. *)
Definition kernel (P : params) (g : gate) (scale : option K) (v : vec) : option vec :=
  if p_n P <=? 30 then
    let outs := output_states (size P) g (match scale with None => true | Some _ => false end) false in
    Some (fold_left (body P g outs scale) (Nrange (iterations P)) v)
  else None.

(** The generated function with [collect_norm] (operation_generation.py:397-414). *)
Definition kernel_norm (P : params) (g : gate) (v : vec) : option K :=
  if p_n P <=? 30 then
    let outs := output_states (size P) g false true in
    Some (fold_left
            (fun acc b =>
               let amp st := v (state_index P b st) in
               fold_left (fun acc' i => radd acc' (rnorm (multiply (instructions (size P) g i) amp)))
                         outs acc)
            (Nrange (iterations P)) r0)
  else None.

(** All indices that one iteration reads or writes. *)
Definition touched (P : params) (g : gate) (skip_identity skip_zeros : bool) (b : N) : list N :=
  let outs := output_states (size P) g skip_identity skip_zeros in
  map (state_index P b) (outs ++ dependent_states (size P) g outs).

(** The shipped gates (operation_generation.py:739-778).  A gate read at run time: all entries are
    variables. *)
Definition runtime_gate (m : N -> N -> K) : gate := fun i j => EV (m i j).

(** swap_matrix (operation_generation.py:739-747) *)
Definition swap_gate : gate := fun i j =>
  match i, j with
  | 0, 0 => E1 | 1, 2 => E1 | 2, 1 => E1 | 3, 3 => E1 | _, _ => E0
  end.

(** measurement_0, measurement_1 (operation_generation.py:757-758) *)
Definition meas_gate (b : N) : gate := fun i j => if (i =? b) && (j =? b) then E1 else E0.

End Kernel.

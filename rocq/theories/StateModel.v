(** Model of the state of a circuit: Circuit.state, density_matrix, set_state and _assert_state
    (dwave/gate/circuit.py:243-292), in exact real arithmetic. *)
From Coq Require Import List NArith ZArith Bool Reals.
From Verif Require Import Py CRing Cplx SimModel SimReal.
Import ListNotations.
Local Open Scope R_scope.

(** A numpy array: its shape and its elements in row-major order. *)
Record arr := mkArr { shape : list N; data : N -> C }.

Definition size_of (a : arr) : N := fold_right N.mul 1%N (shape a).

(** np.linalg.norm without [ord]: the 2-norm of the flattened array. *)
Definition frob (a : arr) : R := sqrt (Rsum (Nrange (size_of a)) (fun i => Cnorm2 (data a i))).

(** np.isclose(x, 1) with the default tolerances. *)
Definition isclose1 (x : R) : bool :=
  if Rle_dec (Rabs (x - 1)) (1 / 100000000 + 1 / 100000 * 1) then true else false.

(** The attributes [_state] and [_density_matrix]. *)
Record cst := mkCst { st_state : option arr; st_dm : option arr }.

(** Circuit.__init__ (circuit.py:71-92): neither is set. *)
Definition cst0 : cst := mkCst None None.

Definition shape_eqb (a b : list N) : bool := if list_eq_dec N.eq_dec a b then true else false.

(** _assert_state (circuit.py:285-292).  [2 << -1] is a ValueError. *)
Definition assert_state (num_qubits : N) (a : arr) : res unit :=
  if (num_qubits =? 0)%N then Err ValueError else
  let size := N.shiftl 2 (num_qubits - 1) in
  if negb (shape_eqb (shape a) [size]) && negb (shape_eqb (shape a) [size; size]) then Err ValueError else
  if isclose1 (frob a) then Ok tt else Err ValueError.

(** [state / np.linalg.norm(state)]; [None] stands for the array of nans that division by 0 gives. *)
Definition normalise (a : arr) : option arr :=
  if Req_EM_T (frob a) 0 then None
  else Some (mkArr (shape a) (fun i => Cmul (RtoC (/ frob a)) (data a i))).

(** set_state (circuit.py:257-283).  An array of nans fails the shape check or the norm check, both
    ValueErrors. *)
Definition set_state (num_qubits : N) (a : arr) (force normalize : bool) (s : cst) : cst * res unit :=
  if negb force && match st_state s, st_dm s with None, None => false | _, _ => true end
  then (s, Err CircuitError)
  else
    match (if normalize then normalise a else Some a) with
    | None => (s, Err ValueError)
    | Some a' =>
        match assert_state num_qubits a' with
        | Err e => (s, Err e)
        | Ok _ => (if Nat.eqb (length (shape a')) 1 then mkCst (Some a') None else mkCst None (Some a'), Ok tt)
        end
    end.

(** The state property (circuit.py:243-248). *)
Definition get_state (s : cst) : res (option arr) :=
  match st_state s, st_dm s with
  | None, Some _ => Err CircuitError
  | o, _ => Ok o
  end.

(** [v.reshape(-1, 1) @ v.reshape(1, -1)]: entry (r, c) is v[r] * v[c] (each sum has one term). *)
Definition outer (a : arr) : arr :=
  let d := size_of a in
  mkArr [d; d] (fun i => Cmul (data a (i / d)%N) (data a (i mod d)%N)).

(** The density_matrix property (circuit.py:250-255). *)
Definition get_dm (s : cst) : cst * option arr :=
  match st_state s, st_dm s with
  | Some a, None => (mkCst (Some a) (Some (outer a)), Some (outer a))
  | _, o => (s, o)
  end.

(** simulate including its last line (simulator.pyx:133-173); [None] means that nothing is set for a circuit
    without qubits. *)
Definition out_arr (n : N) (o : sim_out Ccring) : option arr :=
  match o with
  | SNothing _ => None
  | SVec _ v => Some (mkArr [2 ^ n]%N v)
  | SMat _ v => Some (mkArr [2 ^ n; 2 ^ n]%N v)
  end.

Definition simulate_set (rnd : nat -> R) (c : scirc Ccring) (mixed le : bool) (m : mem Ccring) (s : cst)
  : mem Ccring * cst * res unit :=
  match simulate_C rnd c mixed le m with
  | (m', Err e) => (m', s, Err e)
  | (m', Ok o) =>
      match out_arr (num_qubits Ccring c) o with
      | None => (m', s, Ok tt)
      | Some a => let (s', r) := set_state (num_qubits Ccring c) a true false s in (m', s', r)
      end
  end.

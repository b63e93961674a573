(** Model of dwave/gate/simulator/simulator.pyx and of the operator sets generated by
    dwave/gate/simulator/operation_generation.py:536-721.

    Amplitudes are elements of a ring with conjugation (exact arithmetic; floating point rounding is not
    modelled).  What the code does with real numbers beyond ring operations (comparing with the random
    number, testing for zero, the factor 1/sqrt(p)) comes in as parameters; file SimReal.v instantiates
    everything with the complex numbers. *)
From Coq Require Import List NArith Arith Bool.
From Verif Require Import Py CRing KernelModel.
Import ListNotations.

Section Sim.
Variable K : cring.
Variable U : Type.                    (* values of rng.uniform() *)
Variable gtb : K -> U -> bool.        (* t > u *)
Variable is0 : K -> bool.             (* p == 0.0 *)
Variable invsqrt : K -> K.            (* 1 / np.sqrt(p) *)

Notation gate := (N -> N -> entry K).
Notation vec := (N -> K).

Definition get {A} (o : option A) : res A := match o with Some a => Ok a | None => Err Undefined end.

(** The choice of an operator (operation_generation.py:616-654).  Returns the index, its probability and
    whether the warning of lines 643-648 is issued. *)
Fixpoint choose (P : params) (ops : list gate) (idx : nat) (t : K) (u : U) (v : vec)
  : res (nat * K * bool) :=
  match ops with
  | [] => Err RuntimeError               (* no operators: p stays 0.0 *)
  | g :: rest =>
      let? p := get (kernel_norm P g v) in
      let t' := radd t p in
      match rest with
      | [] => Ok (idx, p, negb (gtb t' u))
      | _ => if gtb t' u then Ok (idx, p, false) else choose P rest (S idx) t' u v
      end
  end.

(** The generated driver (operation_generation.py:672-715). *)
Definition op_set (P : params) (ops : list gate) (u : U) (apply : bool) (v : vec)
  : res (nat * bool * vec) :=
  let? (idx, p, warn) := choose P ops 0 r0 u v in
  if is0 p then Err RuntimeError
  else if apply then
    match nth_error ops idx with
    | Some g => let? v' := get (kernel P g (Some (invsqrt p)) v) in Ok (idx, warn, v')
    | None => Err RuntimeError
    end
  else Ok (idx, warn, v).

(** measurement_computational_basis (operation_generation.py:757-758, 771). *)
Definition meas_ops : list gate := [meas_gate 0; meas_gate 1].

(** sample_qubit (simulator.pyx:176-205); [n] is [round(log2(len(state)))]. *)
Definition sample_qubit (le : bool) (n q : N) (u : U) (collapse : bool) (v : vec)
  : res (nat * bool * vec) :=
  op_set (mkParams le n [q] []) meas_ops u collapse v.

(** What the simulator looks at in an operation (simulator.pyx:44-130). *)
Inductive kind :=
| KMeasure (mid : nat) (bits : option (list nat))   (* measurement object and the ids of its bits *)
| KSwap
| KCSwap
| KCCX
| KControlled (num_control : nat) (dim : N) (m : N -> N -> K)
      (* num_control is 0 when the class attribute is None; [dim], [m]: target_operation's matrix *)
| KOther (num_qubits : nat) (m : N -> N -> K).      (* every other operation *)

Record sop := mkSop {
  so_kind : kind;
  so_qubits : option (list nat);     (* op.qubits, as qubit ids *)
  so_cond : list nat                 (* op._cond, as bit ids; [] for None *)
}.

(** What simulation changes besides the state vector: bit values, the position in the random stream and
    the attributes [_measured_state] and [_measured_qubit_indices] of each measurement. *)
Record mem := mkMem {
  m_bits : nat -> option bool;
  m_pos : nat;
  m_state : nat -> option vec;
  m_idx : nat -> list N;
  m_warn : nat                       (* number of warnings issued *)
}.

Variable rnd : nat -> U.             (* the random stream *)

(** Bit.__bool__ (primitives.py:141-145): an unset bit is true. *)
Definition bit_true (m : mem) (b : nat) : bool := match m_bits m b with Some x => x | None => true end.

(** Operation.is_blocked (base.py:311-321). *)
Definition is_blocked (m : mem) (o : sop) : bool := negb (forallb (bit_true m) (so_cond o)).

Definition set_bit (b : nat) (x : bool) (m : mem) : mem :=
  mkMem (fun b' => if Nat.eqb b' b then Some x else m_bits m b') (m_pos m) (m_state m) (m_idx m) (m_warn m).
Definition next_rnd (m : mem) : mem :=
  mkMem (m_bits m) (S (m_pos m)) (m_state m) (m_idx m) (m_warn m).
Definition set_mstate (i : nat) (v : vec) (m : mem) : mem :=
  mkMem (m_bits m) (m_pos m) (fun j => if Nat.eqb j i then Some v else m_state m j) (m_idx m) (m_warn m).
Definition add_idx (i : nat) (t : N) (m : mem) : mem :=
  mkMem (m_bits m) (m_pos m) (m_state m)
        (fun j => if Nat.eqb j i then m_idx m j ++ [t] else m_idx m j) (m_warn m).
Definition warn (m : mem) : mem := mkMem (m_bits m) (m_pos m) (m_state m) (m_idx m) (S (m_warn m)).

(** The loop of _measure (simulator.pyx:211-219). *)
Fixpoint measure_loop (n : N) (mid : nat) (bits : option (list nat)) (idx : nat) (ts : list N)
    (m : mem) (v : vec) : mem * res vec :=
  match ts with
  | [] => (m, Ok v)
  | t :: ts' =>
      let u := rnd (m_pos m) in
      let m1 := next_rnd m in
      match sample_qubit false n t u true v with
      | Err e => (m1, Err e)
      | Ok (o, w, v') =>
          let m2 := if w then warn m1 else m1 in
          let m3 := match bits with
                    | Some bs => match nth_error bs idx with
                                 | Some b => set_bit b (Nat.eqb o 1) m2
                                 | None => warn m2
                                 end
                    | None => warn m2
                    end in
          measure_loop n mid bits (S idx) ts' (add_idx mid t m3) v'
      end
  end.

(** _measure (simulator.pyx:208-219) *)
Definition measure (n : N) (mid : nat) (bits : option (list nat)) (ts : list N) (m : mem) (v : vec)
  : mem * res vec :=
  measure_loop n mid bits 0 ts (set_mstate mid v m) v.

Definition item (ts : list N) (i : nat) : res N :=
  match nth_error ts i with Some t => Ok t | None => Err IndexError end.

Definition conj_gate (c : bool) (m : N -> N -> K) : N -> N -> K :=
  if c then fun i j => rconj (m i j) else m.

(** The hardcoded X of simulator.pyx:86. *)
Definition x_matrix : N -> N -> K := fun i j =>
  match i, j with 0%N, 1%N => r1 | 1%N, 0%N => r1 | _, _ => r0 end.

(** apply_instruction (simulator.pyx:44-130). *)
Definition apply_instruction (n : N) (le conj : bool) (o : sop) (ts : list N) (m : mem) (v : vec)
  : mem * res vec :=
  if is_blocked m o then (m, Ok v) else
  match so_kind o with
  | KMeasure mid bits =>
      if le then (m, Err CircuitError) else measure n mid bits ts m v
  | KSwap =>
      (m, let? t0 := item ts 1 in let? t1 := item ts 0 in
          get (kernel (mkParams le n [t0; t1] []) swap_gate None v))
  | KCSwap =>
      (m, let? t0 := item ts 1 in let? t1 := item ts 2 in let? c := item ts 0 in
          get (kernel (mkParams le n [t0; t1] [c]) swap_gate None v))
  | KCCX =>
      (m, let? t := item ts 2 in let? c0 := item ts 0 in let? c1 := item ts 1 in
          get (kernel (mkParams le n [t] [c0; c1]) (runtime_gate x_matrix) None v))
  | KControlled nc dim g =>
      if negb (N.eqb dim 2) then (m, Err AssertionError) else
      match nc with
      | 1 => (m, let? t := item ts 1 in let? c := item ts 0 in
                 get (kernel (mkParams le n [t] [c]) (runtime_gate (conj_gate conj g)) None v))
      | 2 => (m, let? t := item ts 2 in let? c0 := item ts 0 in let? c1 := item ts 1 in
                 get (kernel (mkParams le n [t] [c0; c1]) (runtime_gate (conj_gate conj g)) None v))
      | _ => (m, Ok v)                     (* no branch applies: nothing happens *)
      end
  | KOther nq g =>
      if negb (Nat.eqb nq 1) then (m, Err AttributeError)   (* the message uses op.label *)
      else (m, let? t := item ts 0 in
               get (kernel (mkParams le n [t] []) (runtime_gate (conj_gate conj g)) None v))
  end.

(** A circuit as the simulator sees it: the ids of its qubits in order, and its operations. *)
Record scirc := mkScirc { sc_qubits : list nat; sc_ops : list sop }.

Fixpoint index_of (x : nat) (l : list nat) : option nat :=
  match l with
  | [] => None
  | y :: l' => if Nat.eqb x y then Some 0 else option_map S (index_of x l')
  end.

(** [[circuit.qubits.index(qb) for qb in op.qubits]]; [None] is not iterable. *)
Definition target_indices (c : scirc) (o : sop) : res (list N) :=
  match so_qubits o with
  | None => Err TypeError
  | Some qs => mapM (fun q => match index_of q (sc_qubits c) with
                              | Some i => Ok (N.of_nat i)
                              | None => Err ValueError
                              end) qs
  end.

Definition num_qubits (c : scirc) : N := N.of_nat (length (sc_qubits c)).

(** [np.zeros(...)] with [state[0] = 1]. *)
Definition zero_state : vec := fun i => if N.eqb i 0 then r1 else r0.

(** The loop of simulate (simulator.pyx:167-171). *)
Fixpoint run_pure (c : scirc) (le : bool) (ops : list sop) (m : mem) (v : vec) : mem * res vec :=
  match ops with
  | [] => (m, Ok v)
  | o :: ops' =>
      match target_indices c o with
      | Err e => (m, Err e)
      | Ok ts =>
          match apply_instruction (num_qubits c) le false o ts m v with
          | (m', Ok v') => run_pure c le ops' m' v'
          | (m', Err e) => (m', Err e)
          end
      end
  end.

(** The loop of _simulate_circuit_density_matrix (simulator.pyx:233-248).  [_measure(op, state, circuit,
    rng)] stores the state and then iterates over the circuit, which is a TypeError. *)
Fixpoint run_mixed (c : scirc) (ops : list sop) (m : mem) (v : vec) : mem * res vec :=
  match ops with
  | [] => (m, Ok v)
  | o :: ops' =>
      match so_kind o with
      | KMeasure mid _ => (set_mstate mid v m, Err TypeError)
      | _ =>
          match target_indices c o with
          | Err e => (m, Err e)
          | Ok ts =>
              match apply_instruction (2 * num_qubits c) false false o ts m v with
              | (m1, Err e) => (m1, Err e)
              | (m1, Ok v1) =>
                  match apply_instruction (2 * num_qubits c) false true o
                          (map (fun t => t + num_qubits c)%N ts) m1 v1 with
                  | (m2, Ok v2) => run_mixed c ops' m2 v2
                  | (m2, Err e) => (m2, Err e)
                  end
              end
          end
      end
  end.

(** What simulate hands to [circuit.set_state] (simulator.pyx:133-173): a vector, a matrix in row-major
    order, or nothing for a circuit without qubits.  [mixed_state] ignores [little_endian]. *)
Inductive sim_out := SNothing | SVec (v : vec) | SMat (v : vec).

Definition simulate (c : scirc) (mixed le : bool) (m : mem) : mem * res sim_out :=
  match sc_qubits c with
  | [] => (m, Ok SNothing)
  | _ =>
      if mixed then
        let (m', r) := run_mixed c (sc_ops c) m zero_state in
        (m', let? v := r in Ok (SMat v))
      else
        let (m', r) := run_pure c le (sc_ops c) m zero_state in
        (m', let? v := r in Ok (SVec v))
  end.

(** Measurement.sample (base.py:701-747) for one measurement: [us] supplies one random number per sampled
    qubit.  The number of qubits of the stored state is [n].  [max([])] is a ValueError. *)
Fixpoint sample_once (n : N) (qs : list N) (us : nat -> U) (k : nat) (v : vec) : res (list nat * nat) :=
  match qs with
  | [] => Ok ([], k)
  | q :: qs' =>
      let? (o, _, v') := sample_qubit false n q (us k) true v in
      let? (os, k') := sample_once n qs' us (S k) v' in
      Ok (o :: os, k')
  end.

Fixpoint sample_many (n : N) (qs : list N) (us : nat -> U) (k num : nat) (v : vec) : res (list (list nat)) :=
  match num with
  | O => Ok []
  | S num' =>
      let? (os, k') := sample_once n qs us k v in
      let? rest := sample_many n qs us k' num' v in
      Ok (os :: rest)
  end.

Definition sample (n : N) (mid : nat) (m : mem) (qs : option (list N)) (us : nat -> U) (num : nat)
  : res (list (list nat)) :=
  match m_state m mid with
  | None => Err CircuitError
  | Some v =>
      let qs' := match qs with Some l => l | None => m_idx m mid end in
      match qs' with
      | [] => Err ValueError
      | _ => if forallb (fun q => N.ltb q n) qs' then sample_many n qs' us 0 num v else Err ValueError
      end
  end.

End Sim.

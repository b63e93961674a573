(** Model of programs that also simulate: the heap of WorldModel together with the attributes the simulator
    writes.  [simulate] (dwave/gate/simulator/simulator.pyx:133-173) sets bits (primitives.py:122-139), the
    circuit's [_state] and [_density_matrix] (circuit.py:89-90, 257-283) and a measurement's [_measured_state]
    and [_measured_qubit_indices] (operations/base.py:664-667, simulator.pyx:208-219). *)
From Coq Require Import List NArith ZArith String Bool Reals.
From Verif Require Import Py CRing Cplx SimModel SimReal StateModel RegisterModel WorldModel LinkModel.
Import ListNotations.

(** [s_st] by circuit, [s_mst] and [s_idx] by operation.  None of the methods modelled by [call] reads or
    writes them: Circuit.__init__ and Measurement.__init__ leave them unset (circuit.py:89-90,
    base.py:662-667), and reset does not touch them (circuit.py:342-360). *)
Record session := mkSession {
  s_w : world R;
  s_st : nat -> cst;
  s_mst : nat -> option (N -> C);
  s_idx : nat -> list N
}.

Definition begin (ks : list cls) : session := mkSession (start R ks) (fun _ => cst0) (fun _ => None) (fun _ => []).

Definition with_world (s : session) (w : world R) : session := mkSession w (s_st s) (s_mst s) (s_idx s).

(** What the simulator finds: the values of the bits and what it left in the measurements before.  A new
    random generator is made for every simulation (simulator.pyx:161), so the position is 0. *)
Definition found (s : session) : SimModel.mem Ccring :=
  mkMem Ccring (m_bits Ccring (memory (s_w s))) 0 (s_mst s) (s_idx s) 0.

(** The bits after [bit.set(m, force=True)] (simulator.pyx:215): those of the memory. *)
Fixpoint put_from (k : nat) (f : nat -> option bool) (bs : list (label * option bool)) : list (label * option bool) :=
  match bs with
  | [] => []
  | (l, _) :: bs' => (l, f k) :: put_from (S k) f bs'
  end.
Definition put_bits (f : nat -> option bool) (w : world R) : world R := WorldModel.set_bit w (put_from 0 f (w_bit w)).

Definition set_at {A} (i : nat) (x : A) (f : nat -> A) : nat -> A := fun j => if Nat.eqb j i then x else f j.

(** simulate(circuit, mixed_state, little_endian, rng_seed) (simulator.pyx:133-173); [rnd] is the stream of the
    random generator.  It begins by reading circuit.num_qubits, and so circuit.qubits, which is then cached
    (circuit.py:225-232, 295).  [Undefined] for what LinkModel.seen does not cover. *)
Definition sim (c : nat) (mixed le : bool) (rnd : nat -> R) (s : session) : session * res unit :=
  match seen (s_w s) c with
  | None => (s, Err Undefined)
  | Some sc =>
      match simulate_set rnd sc mixed le (found s) (s_st s c) with
      | (m, st, r) => (mkSession (put_bits (m_bits Ccring m) (fst (qubits c (s_w s)))) (set_at c st (s_st s)) (m_state Ccring m) (m_idx Ccring m), r)
      end
  end.

(** Reading circuit.density_matrix (circuit.py:250-255), which stores what it computes. *)
Definition read_dm (c : nat) (s : session) : session * res unit :=
  (mkSession (s_w s) (set_at c (fst (get_dm (s_st s c))) (s_st s)) (s_mst s) (s_idx s), Ok tt).

(** circuit.set_state(a, force, normalize) (circuit.py:257-292).  A state that is already there is noticed
    before anything else is read (268-270); otherwise _assert_state reads num_qubits (287), and so
    circuit.qubits. *)
Definition set_st (c : nat) (a : arr) (force normalize : bool) (s : session) : session * res unit :=
  if negb force && match st_state (s_st s c), st_dm (s_st s c) with None, None => false | _, _ => true end
  then (s, Err CircuitError)
  else
    match num_qubits c (s_w s) with
    | (w, Err e) => (with_world s w, Err e)
    | (w, Ok n) =>
        let (st, r) := set_state (N.of_nat n) a force normalize (s_st s c) in
        (mkSession w (set_at c st (s_st s)) (s_mst s) (s_idx s), r)
    end.

(** Reading circuit.state (circuit.py:243-248). *)
Definition read_state (c : nat) (s : session) : session * res unit :=
  (s, match get_state (s_st s c) with Ok _ => Ok tt | Err e => Err e end).

Section Run.
Variable ptrue : R -> bool.
Variable peqb : R -> R -> bool.

(** Programs: those of WorldModel, with simulations, set_state and reads of state and
    density_matrix among the calls. *)
Inductive sprog :=
| SSkip
| SDo (x : call R)
| SSim (c : nat) (mixed le : bool) (rnd : nat -> R)
| SDm (c : nat)
| SSet (c : nat) (a : arr) (force normalize : bool)
| SState (c : nat)
| SSeq (p q : sprog)
| SWith (c : nat) (body : sprog)
| SFrozen (body : sprog)
| STry (body : sprog)
| SRaise (e : exn).

(** A method that only acts on the heap. *)
Definition lift (f : M R unit) (s : session) : session * res unit :=
  let (w, r) := f (s_w s) in (with_world s w, r).

Definition then_ (f : session * res unit) (g : session -> session * res unit) : session * res unit :=
  match f with (s, Ok _) => g s | (s, Err e) => (s, Err e) end.

(** After the body of a [with] statement. *)
Definition lastly (r : session * res unit) (fin : M R unit) : session * res unit :=
  let (s, o) := r in
  match fin (s_w s) with
  | (w, Err e) => (with_world s w, Err e)
  | (w, Ok _) => (with_world s w, o)
  end.

Fixpoint srun (p : sprog) (s : session) : session * res unit :=
  match p with
  | SSkip => (s, Ok tt)
  | SDo x => lift (do_call ptrue peqb x) s
  | SSim c mixed le rnd => sim c mixed le rnd s
  | SDm c => read_dm c s
  | SSet c a force normalize => set_st c a force normalize s
  | SState c => read_state c s
  | SSeq p q => then_ (srun p s) (srun q)
  | SWith c body =>
      match context c (s_w s) with
      | (w, Err e) => (with_world s w, Err e)
      | (w, Ok a) => then_ (lift (ctx_enter a) (with_world s w)) (fun s' => lastly (srun body s') (ctx_exit a))
      end
  | SFrozen body =>
      then_ (lift (set_frozen true CircuitError) s)
            (fun s' => lastly (srun body s') (set_frozen false AttributeError))
  | STry body => (fst (srun body s), Ok tt)
  | SRaise e => (s, Err e)
  end.
End Run.

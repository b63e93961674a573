(** Specifications for C71: when simulating a circuit does what a QIR program does. *)
From Coq Require Import List String Bool Arith NArith Reals.
From Verif Require Import Py CRing Cplx SimModel SimSpec SimReal StateModel SampleSpec QirModel QirSemSpec.
Import ListNotations.
Local Open Scope R_scope.

Section Meant.
Variable sc : scirc Ccring.
(** The bits of the circuit in order, and the bits that are measured, in the order of the measurements. *)
Variables bits measured : list nat.
(** Bit values before. *)
Variable m0 : mem Ccring.
Notation n := (SimModel.num_qubits Ccring sc).

(** Simulation with random numbers [rnd] stores the amplitudes of [s]; it writes the results of [s] into the circuit's
    bits and leaves all other bits; the recorded results are the values of the measured bits. *)
Definition simulated_as (rnd : nat -> R) (st : cst) (s : mach) : Prop :=
  exists m a, simulate_set rnd sc false false m0 st = (m, mkCst (Some (mkArr [2 ^ n]%N a)) None, Ok tt) /\
    (forall i, (i < 2 ^ n)%N -> amp s i = a i) /\
    (forall j b, nth_error bits j = Some b -> m_bits Ccring m b = match result s j with Some o => Some o | None => m_bits Ccring m0 b end) /\
    (forall j, nth_error bits j = None -> result s j = None) /\
    (forall b, ~ In b bits -> m_bits Ccring m b = m_bits Ccring m0 b) /\
    output s = map (m_bits Ccring m) measured.

(** Random numbers determine outcomes; with these outcomes the program has a run, and simulation ends as the run does; for
    every run of the program the random numbers that determine its outcomes form a box whose volume is its probability. *)
Definition same_runs (calls : list (call R)) : Prop :=
  exists drawn : (nat -> R) -> list bool -> Prop,
    (forall rnd, (forall k, uniform (rnd k)) -> exists os, drawn rnd os /\ forall os', drawn rnd os' -> os' = os) /\
    (forall rnd os st, (forall k, uniform (rnd k)) -> drawn rnd os -> exists p s, qir_run n calls ground os p s /\ simulated_as rnd st s) /\
    (forall os p s, qir_run n calls ground os p s ->
       exists b, List.length b = List.length os /\ in_unit b /\ volume b = p /\
         forall rnd, (forall k, uniform (rnd k)) -> (drawn rnd os <-> inside (map rnd (seq 0 (List.length os))) b)).
End Meant.

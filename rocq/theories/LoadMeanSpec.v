(** Specifications for C72: programs of QIR's base profile as lists of calls. *)
From Coq Require Import List String Bool Arith Reals.
From Verif Require Import Cplx QirModel QirSemSpec.
Import ListNotations.
Local Open Scope string_scope.

(** A function with its parameters and the places of its qubits. *)
Definition base_call : Type := (string * list R * list nat)%type.
Definition gate_call (g : base_call) : call R :=
  let '(f, ps, qs) := g in Call R f (map (CDouble R) ps ++ map (CQubit R) qs).
Definition measure_call (m : nat * nat) : call R := Call R "__quantum__qis__mz__body" [CQubit R (fst m); CResult R (snd m)].
Definition record_call (r : nat) : call R := Call R "__quantum__rt__result_record_output" [CResult R r].
(** A gate of the instruction set on as many qubits as it has, none of them twice. *)
Definition base_ok (g : base_call) : Prop :=
  let '(f, ps, qs) := g in exists ctrl m, base_gate f ps = Some (ctrl, m) /\ NoDup qs /\ List.length qs = if ctrl then 2 else 1.
(** Gates, then measurements, then records of what was measured; initialised any number of times. *)
Record base_program (ks : list (call R)) (gs : list base_call) (ms : list (nat * nat)) (rs : list nat) : Prop := {
  bp_calls : exists k, ks = (repeat (Call R "__quantum__rt__initialize" []) k ++ map gate_call gs ++ map measure_call ms ++ map record_call rs)%list;
  bp_gates : Forall base_ok gs;
  bp_records : incl rs (map snd ms)
}.
(** The highest place of a qubit of a gate is [n - 1]. *)
Definition gate_places (gs : list base_call) (n : nat) : Prop :=
  forall k, k < n <-> exists g j, In g gs /\ In j (snd g) /\ k <= j.

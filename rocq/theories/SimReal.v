(** The simulator model of SimModel.v over the complex numbers: the comparisons and the square root that
    dwave/gate/simulator/operation_generation.py:628 ([t > u]), 700 ([p == 0.0]) and 703
    ([1 / np.sqrt(p)]) use, in exact real arithmetic. *)
From Coq Require Import Reals NArith List.
From Verif Require Import CRing Cplx KernelModel SimModel.
Import ListNotations.
Local Open Scope R_scope.

Definition Cgtb (t : C) (u : R) : bool := if Rlt_dec u (Re t) then true else false.
Definition Cis0 (p : C) : bool := if Req_EM_T (Re p) 0 then true else false.
Definition Cinvsqrt (p : C) : C := RtoC (1 / sqrt (Re p)).

Definition op_set_C := op_set Ccring R Cgtb Cis0 Cinvsqrt.
Definition sample_qubit_C := sample_qubit Ccring R Cgtb Cis0 Cinvsqrt.
Definition simulate_C := simulate Ccring R Cgtb Cis0 Cinvsqrt.
Definition run_pure_C := run_pure Ccring R Cgtb Cis0 Cinvsqrt.
Definition sample_C := sample Ccring R Cgtb Cis0 Cinvsqrt.

(** The noise operator sets (operation_generation.py:749-755, 772-773) for a noise strength [eps]; the
    shipped file fixes eps = 0.01.  [compile_gate] compares the numbers with 0 and 1. *)
Definition const_entry (x : R) : entry Ccring :=
  if Req_EM_T x 0 then E0 else if Req_EM_T x 1 then E1 else EV (RtoC x : Ccring).

Definition diag2 (a b : R) : N -> N -> entry Ccring := fun i j =>
  match i, j with 0%N, 0%N => const_entry a | 1%N, 1%N => const_entry b | _, _ => E0 end.

Definition dephase_ops (eps : R) : list (N -> N -> entry Ccring) :=
  [diag2 (sqrt (1 - eps)) (sqrt (1 - eps)); diag2 (sqrt eps) (- sqrt eps)].

Definition amp_damp_ops (eps : R) : list (N -> N -> entry Ccring) :=
  [diag2 1 (sqrt (1 - eps));
   fun i j => match i, j with 0%N, 1%N => const_entry (sqrt eps) | _, _ => E0 end].

(** Specifications for dwave/gate/tools/unitary.py: controlled operators and products, entry by entry. *)
From Coq Require Import List NArith Bool.
From Verif Require Import CRing KernelSpec SimModel UnitaryModel.
Import ListNotations.
Local Open Scope N_scope.

Section Spec.
Context {K : cring}.

(** Row [i], column [j] of the operator that applies [u] to qubit [t] when all qubits in [cs] are 1;
    qubit 0 is the most significant bit of an index. *)
Definition ctrl_entry (n : N) (cs : list N) (t : N) (u : N -> N -> K) (i j : N) : K :=
  if forallb (qbit false n i) cs
  then if qset false n i t false =? qset false n j t false
       then u (N.b2n (qbit false n i t)) (N.b2n (qbit false n j t))
       else r0
  else if i =? j then r1 else r0.

(** Matrix times vector. *)
Definition mat_vec (n : N) (M : N -> N -> K) (v : N -> K) (i : N) : K :=
  sumf (Nrange (2 ^ n)) (fun j => rmul (M i j) (v j)).

(** A column of the identity. *)
Definition basis (j : N) : N -> K := fun i => if i =? j then r1 else r0.
End Spec.

(** An operation as build_unitary sees it: a one-qubit gate, or a gate with one or two controls whose
    target gate has a class-level matrix. *)
Definition seen_as {K : cring} (o : sop K) (x : uop K) : Prop :=
  match so_kind K o, x with
  | KOther _ 1%nat m, USingle _ nq m' oq => nq = 1 /\ m' = m /\ oq = so_qubits K o
  | KControlled _ nc dim m, UControlled _ d (Some m') control [target] =>
      d = dim /\ m' = m /\ length control = nc /\ so_qubits K o = Some (control ++ [target])
  | _, _ => False
  end.

(** Specification for C83: operations on which nothing that is kept depends. *)
From Coq Require Import List NArith Bool Reals.
From Verif Require Import Py CRing Cplx KernelSpec SimModel SimSpec SampleSpec BranchSpec OrderSpec.
Import ListNotations.

(** A list of operations is divided into kept and dropped ones; a dropped operation is independent of all kept
    operations that come after it.  (It may depend on earlier ones, and other dropped operations on it.) *)
Inductive pruned : list (sop Ccring) -> list (sop Ccring) -> list (sop Ccring) -> Prop :=
| pr_nil : pruned [] [] []
| pr_keep o l k d : pruned l k d -> pruned (o :: l) (o :: k) d
| pr_drop o l k d : (forall p, In p k -> independent o p) -> pruned l k d -> pruned (o :: l) k (o :: d).

(** The probability that the bits pass a test at the end: the total weight of the branches that pass. *)
Definition chance (c : scirc Ccring) (ops : list (sop Ccring)) (bits : nat -> option bool) (v : N -> C) (T : (nat -> option bool) -> bool) (p : R) : Prop :=
  exists L : list (list bool * R), NoDup (map fst L) /\
    (forall h, In h (map fst L) <-> exists bits' w, branch c ops h bits v bits' w /\ T bits' = true) /\
    (forall h q, In (h, q) L -> forall bits' w, branch c ops h bits v bits' w -> weight (num_qubits Ccring c) w = q) /\ p = Rsum L snd.

(** The test does not look at bits that the operations may write. *)
Definition ignores (T : (nat -> option bool) -> bool) (d : list (sop Ccring)) : Prop :=
  forall f g, (forall b, (forall o, In o d -> ~ In b (written o)) -> f b = g b) -> T f = T g.

(** Positions of qubits that none of the operations changes. *)
Definition apart (c : scirc Ccring) (d : list (sop Ccring)) (ts : list N) : Prop :=
  forall t, In t ts -> (t < num_qubits Ccring c)%N /\
    forall o qs q, In o d -> so_qubits Ccring o = Some qs -> In q qs -> nth_error (sc_qubits Ccring c) (N.to_nat t) = Some q -> keeps (so_kind Ccring o) qs q.

(** A gate with a diagonal matrix, controlled or not. *)
Definition phase (o : sop Ccring) : Prop := match so_kind Ccring o with KControlled _ _ _ m | KOther _ _ m => diagonal m | _ => False end.

(** Property C45: the matrix of an operation made from a parametric circuit. *)
From Coq Require Import List Arith Bool Lia NArith Reals Lra.
From Verif Require Import Py CRing Cplx UnitaryModel GateModel CustomModel CustomSpec CustomProofs.
Import ListNotations.

(** If the variables of the operations occur once each and in the order of the parameter register, starting with its first,
    the matrix is that of the circuit with the i-th variable replaced by the i-th number. Missing: variables that occur
    twice or in another order, and parameters that are variables. *)
Theorem C45_by_index_partial (C P : Type) (K : cring) (view : C -> list (arg P) -> option (list nat) -> res (uop K)) : forall register c ps,
  pc_params C P c = Some register -> whole C P c -> NoDup register -> length ps = length register ->
  occurrences C P c = firstn (length (occurrences C P c)) register ->
  custom_matrix C P K view c (Some (map (Num P) ps)) = custom_matrix C P K view (substituted C P register ps c) None.
Proof. exact (matrix_bound C P K view). Qed.
Print Assumptions C45_by_index_partial.

Definition lib := list R -> option gate.
Definition rx : lib := fun l => match l with [t] => Some (GOne (GRX t)) | _ => None end.
Definition ry : lib := fun l => match l with [t] => Some (GOne (GRY t)) | _ => None end.
Definition cx : lib := fun l => match l with [] => Some (GC GX) | _ => None end.
Definition lop (g : lib) (args : list (arg R)) (qs : list nat) : cop lib R := mkCop lib R g args (Some qs).
Definition p (v : nat) : arg R := Var R v.
(** Qubits 5 and 6, parameter register with variables 10 and 11; the first operation is appended twice. *)
Definition in_order : pcircuit lib R := mkPC lib R [5; 6] (Some [10; 11]) [lop rx [p 10] [5]; lop cx [] [5; 6]; lop ry [p 11] [6]] [0; 1; 0; 2].
Example C45_by_index_case : whole lib R in_order /\ occurrences lib R in_order = [10; 11] /\
  custom_matrix lib R Ccring lib_view in_order (Some (map (Num R) [1%R; 2%R])) =
  custom_matrix lib R Ccring lib_view (mkPC lib R [5; 6] None [lop rx [Num R 1%R] [5]; lop cx [] [5; 6]; lop ry [Num R 2%R] [6]] [0; 1; 0; 2]) None /\
  exists M, custom_matrix lib R Ccring lib_view in_order (Some (map (Num R) [1%R; 2%R])) = Ok (Some M).
Proof.
  assert (W : whole lib R in_order) by (intros i H; cbn in H; repeat destruct H as [<-|H]; try discriminate; destruct H).
  split; [exact W|]. split; [reflexivity|]. split; [|eexists; reflexivity].
  exact (C45_by_index_partial lib R Ccring lib_view [10; 11] in_order [1%R; 2%R] eq_refl W ltac:(repeat constructor; cbn; intuition discriminate) eq_refl eq_refl).
Qed.

(** That is exactly when the right numbers reach the operations, whatever the numbers. *)
Theorem C45_exactly_when (C P : Type) (a b : P) : forall register c, a <> b -> whole C P c -> NoDup register ->
  ((forall ps, length ps = length register -> right_values C P register c ps) <-> occurrences C P c = firstn (length (occurrences C P c)) register).
Proof. exact (right_exactly C P a b). Qed.
Print Assumptions C45_exactly_when.
Example C45_exactly_case : (0 <> 1)%R /\ whole lib R in_order /\ ~ right_values lib R [11; 10] in_order [1%R; 2%R].
Proof.
  split; [lra|]. split; [apply C45_by_index_case|]. intros (h & H & E). vm_compute in H. injection H as <-. specialize (E 0 ltac:(now left)). cbn in E. injection E as E. lra.
Qed.

(** With more occurrences than parameters the matrix is an IndexError. *)
Theorem C45_exhausted (C P : Type) (K : cring) (view : C -> list (arg P) -> option (list nat) -> res (uop K)) : forall c register ps,
  pc_params C P c = Some register -> whole C P c -> length ps < length (occurrences C P c) ->
  custom_matrix C P K view c (Some (map (Num P) ps)) = Err IndexError.
Proof. exact (exhausted C P K view). Qed.
Print Assumptions C45_exhausted.

(** One parameter used in two operations: IndexError, though the circuit with the number has a matrix. *)
Definition used_twice : pcircuit lib R := mkPC lib R [5] (Some [10]) [lop rx [p 10] [5]; lop ry [p 10] [5]] [0; 1].
Example C45_exhausted_case : whole lib R used_twice /\ length [1%R] < length (occurrences lib R used_twice).
Proof. split; [|cbn; lia]. intros i H. cbn in H. repeat destruct H as [<-|H]; try discriminate. destruct H. Qed.
Theorem C45_used_twice_refuted : exists register c ps M, pc_params lib R c = Some register /\ NoDup register /\ whole lib R c /\ length ps = length register /\
  custom_matrix lib R Ccring lib_view (substituted lib R register ps c) None = Ok (Some M) /\
  custom_matrix lib R Ccring lib_view c (Some (map (Num R) ps)) = Err IndexError.
Proof.
  exists [10], used_twice, [1%R]. eexists. split; [reflexivity|]. split; [repeat constructor; auto|]. split; [apply C45_exhausted_case|]. split; [reflexivity|]. split; reflexivity.
Qed.
Print Assumptions C45_used_twice_refuted.

(** Parameters used in another order: another matrix. *)
Definition other_order : pcircuit lib R := mkPC lib R [5] (Some [10; 11]) [lop rx [p 11] [5]; lop ry [p 10] [5]] [0; 1].
Theorem C45_other_order_refuted : exists register c ps M M', pc_params lib R c = Some register /\ NoDup register /\ whole lib R c /\ length ps = length register /\
  custom_matrix lib R Ccring lib_view (substituted lib R register ps c) None = Ok (Some M) /\
  custom_matrix lib R Ccring lib_view c (Some (map (Num R) ps)) = Ok (Some M') /\ M 0%N 1%N <> M' 0%N 1%N.
Proof.
  exists [10; 11], other_order, [0%R; PI]. eexists _, _. split; [reflexivity|]. split; [repeat constructor; cbn; intuition discriminate|].
  split; [intros i H; cbn in H; repeat destruct H as [<-|H]; try discriminate; destruct H|]. split; [reflexivity|]. split; [reflexivity|]. split; [reflexivity|].
  cbn -[cos sin PI]. unfold Cmul, Cadd, Copp, RtoC, Re, Im, Ci, C0, C1. cbn -[cos sin PI].
  replace (0 / 2)%R with 0%R by lra. rewrite cos_PI2, sin_PI2, cos_0, sin_0. intros E. injection E as E1 E2. lra.
Qed.
Print Assumptions C45_other_order_refuted.

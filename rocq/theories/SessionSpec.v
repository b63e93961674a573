(** Specifications for C76: what a program that simulates goes through, and which bits a circuit stores. *)
From Coq Require Import List NArith ZArith String Bool Reals.
From Verif Require Import Py CRing Cplx SimModel SimReal StateModel RegisterModel WorldModel LinkModel SessionModel.
Import ListNotations.
Local Open Scope string_scope.

Section Spec.
Variable ptrue : R -> bool.
Variable peqb : R -> R -> bool.
Notation srun := (srun ptrue peqb).

Definition entered (c : nat) (s : session) : session * res unit :=
  lift (let! a := context c in ctx_enter a) s.

(** [ok] holds of every method a program calls, in the state in which it is called. *)
Fixpoint sexecutes (ok : world R -> call R -> Prop) (p : sprog) (s : session) : Prop :=
  match p with
  | SSkip | SRaise _ | SSim _ _ _ _ | SDm _ | SSet _ _ _ _ | SState _ => True
  | SDo x => ok (s_w s) x
  | SSeq p q => sexecutes ok p s /\ match srun p s with (s', Ok _) => sexecutes ok q s' | _ => True end
  | SWith c body => match entered c s with (s', Ok _) => sexecutes ok body s' | _ => True end
  | SFrozen body => match lift (set_frozen true CircuitError) s with (s', Ok _) => sexecutes ok body s' | _ => True end
  | STry body => sexecutes ok body s
  end.

(** The states a program goes through. *)
Fixpoint svisits (p : sprog) (s t : session) : Prop :=
  t = s \/ t = fst (srun p s) \/
  match p with
  | SSkip | SRaise _ | SDo _ | SSim _ _ _ _ | SDm _ | SSet _ _ _ _ | SState _ => False
  | SSeq p q => svisits p s t \/ match srun p s with (s', Ok _) => svisits q s' t | _ => False end
  | SWith c body => match entered c s with (s', Ok _) => svisits body s' t | _ => False end
  | SFrozen body => match lift (set_frozen true CircuitError) s with (s', Ok _) => svisits body s' t | _ => False end
  | STry body => svisits body s t
  end.
End Spec.

(** Operation [o] is a measurement of at least [i + 1] qubits whose bit number [i] is [b]. *)
Definition stores (w : world R) (o b : nat) : Prop :=
  exists y k qs bs i, nth_error (w_op w) o = Some y /\ nth_error (w_cls w) (o_cls y) = Some k /\ k_name k = "Measurement" /\
    o_qubits y = Some qs /\ o_bits y = Some bs /\ i < List.length qs /\ nth_error bs i = Some (IBit b).

(** Operation [o] has no condition. *)
Definition always (w : world R) (o : nat) : Prop :=
  forall y l, nth_error (w_op w) o = Some y -> o_cond y = Some l -> l = [].

(** Operation [o] is done only if bit [b] allows it. *)
Definition asks (w : world R) (o b : nat) : Prop :=
  exists y l, nth_error (w_op w) o = Some y /\ o_cond y = Some l /\ In (IBit b) l.

(** Every condition is about a bit that an earlier measurement without condition stores, or that no operation
    stores. *)
Definition settled (w : world R) (ops : list nat) : Prop :=
  forall before o after b, ops = (before ++ o :: after)%list -> asks w o b ->
    (exists o', In o' before /\ always w o' /\ stores w o' b) \/ (forall o', In o' ops -> ~ stores w o' b).

Definition measures (w : world R) (o : nat) : Prop :=
  exists y k, nth_error (w_op w) o = Some y /\ nth_error (w_cls w) (o_cls y) = Some k /\ k_name k = "Measurement".

(** Two circuits that differ in the cached [qubits] at most. *)
Definition same_but_cache (x x' : circ) : Prop :=
  c_ops x' = c_ops x /\ s_regs (c_q x') = s_regs (c_q x) /\ c_b x' = c_b x /\ c_locked x' = c_locked x /\ c_ctx x' = c_ctx x /\
  c_par x' = c_par x /\ c_vars x' = c_vars x /\ c_pfrozen x' = c_pfrozen x.

(** Two heaps that differ in the values of bits and in the cached [qubits] of circuit [c] at most. *)
Definition same_but_bits (c : nat) (w w' : world R) : Prop :=
  w_cls w' = w_cls w /\ w_op w' = w_op w /\ w_qubit w' = w_qubit w /\ map fst (w_bit w') = map fst (w_bit w) /\
  w_var w' = w_var w /\ w_ctx w' = w_ctx w /\ w_active w' = w_active w /\ w_exit w' = w_exit w /\
  List.length (w_circ w') = List.length (w_circ w) /\
  forall i x, nth_error (w_circ w) i = Some x ->
    exists x', nth_error (w_circ w') i = Some x' /\ same_but_cache x x' /\ (i <> c -> x' = x).

(** Vocabulary for statements about operations that are built: where they are recorded, with which qubits
    and parameters, and what a sequence of statements builds. *)
From Coq Require Import List ZArith String Bool Arith Sorted.
From Verif Require Import Py RegisterModel WorldModel WorldSpec.
Import ListNotations.
Local Open Scope nat_scope.

Section Spec3.
Variable P : Type.
Variable ptrue : P -> bool.
Variable peqb : P -> P -> bool.
Notation world := (world P).

(** The circuit whose context is active and not frozen. *)
Definition recording (w : world) : option nat :=
  match w_active w with
  | Some a => match nth_error (w_ctx w) a with Some (c, false) => Some c | _ => None end
  | None => None
  end.

(** The circuits differ in nothing but the cached views and the operations, which are given. *)
Definition recorded (x x' : circ) (l : list nat) : Prop :=
  exists vq vb, x' = mkCirc (c_ops x ++ l) (mkSide (s_regs (c_q x)) vq) (mkSide (s_regs (c_b x)) vb)
    (c_locked x) (c_ctx x) (c_par x) (c_vars x) (c_pfrozen x).

(** The qubits a constructor is given. *)
Definition given_qubits (k : kind) (a : qargs) : option (list item) :=
  match k, a with
  | KPlain, AQ qs | KParam, AQ qs | KMeas, AQ qs => qs
  | KCtrl, AQ (Some (q :: l)) | KParCtrl, AQ (Some (q :: l)) => Some (q :: l)
  | KCtrl, ACT (Some (q :: c)) (Some (r :: t)) | KParCtrl, ACT (Some (q :: c)) (Some (r :: t)) => Some (q :: c ++ r :: t)
  | _, _ => None
  end.

(** A parameter and the number it stands for now. *)
Definition stands_for (w : world) (p q : param P) : Prop :=
  match p with
  | PNum z => q = PNum z
  | PVar v => exists s z, nth_error (w_var w) v = Some (s, Some z) /\ ptrue z = true /\ q = PNum z
  end.

(** A circuit that takes operations with variables. *)
Definition takes_variables (x : circ) : Prop := c_par x = true /\ c_vars x <> [].

(** ** What a program builds *)
(** The objects a call builds to the end, in order; [n] objects exist before it. *)
Definition constructs (x : call P) (w : world) (l : list nat) : Prop :=
  let n := List.length (w_op w) in
  match x with
  | CConstruct _ _ _ | CCallOp _ _ _ =>
      l = match snd (do_call ptrue peqb x w) with Ok _ => [n] | Err _ => [] end
  | CCall _ t _ _ | CCallPar t _ _ _ =>
      exists j, l = seq n j /\ n + j <= List.length (w_op (fst (do_call ptrue peqb x w))) <= S (n + j) /\
        (snd (do_call ptrue peqb x w) = Ok tt -> n + j = List.length (w_op (fst (do_call ptrue peqb x w))) /\
           forall y, nth_error (w_circ w) t = Some y -> j = List.length (c_ops y))
  | _ => l = []
  end.
(** Those that a program builds in states in which [R] holds, in order. *)
Fixpoint collects (R : world -> Prop) (p : prog P) (w : world) (l : list nat) : Prop :=
  match p with
  | Skip | Raise _ => l = []
  | Do x => (R w -> constructs x w l) /\ (~ R w -> l = [])
  | Seq p q =>
      match run ptrue peqb p w with
      | (w', Ok _) => exists m n, l = m ++ n /\ collects R p w m /\ collects R q w' n
      | _ => collects R p w l
      end
  | With c body =>
      match (let! a := context c in ctx_enter a) w with
      | (w', Ok _) => collects R body w' l
      | _ => l = []
      end
  | Frozen body =>
      match set_frozen true CircuitError w with
      | (w', Ok _) => collects R body w' l
      | _ => l = []
      end
  | Try body => collects R body w l
  end.
(** Those that are built while circuit [d] records. *)
Definition logs (d : nat) : prog P -> world -> list nat -> Prop := collects (fun w => recording w = Some d).

(** Calls that do not edit the list of operations of circuit [d] directly. *)
Definition no_edit (d : nat) (x : call P) : Prop :=
  match x with
  | CAppend _ c _ | CExtend _ c _ | CRemove _ c _ | CReset _ c _ => c <> d
  | _ => True
  end.
(** Nobody appends operations directly. *)
Definition no_append (x : call P) : Prop :=
  match x with CAppend _ _ _ | CExtend _ _ _ => False | _ => True end.
(** Programs in which no context is frozen. *)
Fixpoint no_freeze (p : prog P) : Prop :=
  match p with
  | Frozen _ => False
  | Seq p q => no_freeze p /\ no_freeze q
  | With _ p | Try p => no_freeze p
  | _ => True
  end.
(** Programs that enter no context. *)
Fixpoint no_with (p : prog P) : Prop :=
  match p with With _ _ => False | Seq p q => no_with p /\ no_with q | Frozen p | Try p => no_with p | _ => True end.
End Spec3.

(** In increasing order, from [m] on and below [n]. *)
Definition increasing (l : list nat) (m n : nat) : Prop := StronglySorted lt l /\ Forall (fun o => m <= o < n) l.

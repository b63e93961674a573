(** Specifications for C74, in terms of worlds: the circuit that a call repeats, and that it is applied. *)
From Coq Require Import List ZArith NArith String Bool Reals.
From Verif Require Import Py CRing Cplx SimModel SimSpec SimReal KernelSpec UnitarySpec GateModel CallSpec RegisterModel WorldModel WorldSpec WorldSpec4 LinkModel LinkSpec.
Import ListNotations.
Local Open Scope nat_scope.

(** The circuit with its conditions left out. *)
Definition unconditioned (s : scirc Ccring) : scirc Ccring :=
  mkScirc Ccring (sc_qubits Ccring s) (map (fun o => mkSop Ccring (so_kind Ccring o) (so_qubits Ccring o) []) (sc_ops Ccring s)).

(** What a called circuit needs, if its operations may still have variables for parameters: no measurements, and
    the rest as in [ready]. *)
Record fillable (w : world R) (y : opobj R) : Prop := {
  fl_class : o_cls y < List.length library;
  fl_gate : forall k, nth_error (w_cls w) (o_cls y) = Some k -> k_kind k <> KMeas;
  fl_qubits : exists qs, o_qubits y = Some qs /\ NoDup qs /\
    forall k, nth_error (w_cls w) (o_cls y) = Some k -> controlled k -> List.length qs = 2;
  fl_params : forall k, nth_error (w_cls w) (o_cls y) = Some k -> has_params (k_kind k) = true ->
    o_params y <> [] /\ (controlled k -> Forall (number R) (o_params y))
}.

(** The gate that operation [o] stands for, without its condition, when its variables get values as told by [S]. *)
Definition meant (S : param R -> param R -> Prop) (w : world R) (o : nat) (s : sop Ccring) : Prop :=
  exists y k qs ps gt, nth_error (w_op w) o = Some y /\ nth_error (w_cls w) (o_cls y) = Some k /\
    o_qubits y = Some (map IQubit qs) /\ so_qubits Ccring s = Some qs /\ so_cond Ccring s = [] /\
    so_kind Ccring s = gate_kind gt /\ stands (k_name k) ps gt /\
    match k_kind k with KParam => Forall2 S (o_params y) (map PNum ps) | _ => o_params y = map PNum ps end.

Definition at_positions (sd : scirc Ccring) (ids : list nat) (ts : list N) : Prop :=
  Forall2 (fun q t => nth_error (sc_qubits Ccring sd) (N.to_nat t) = Some q) ids ts.

(** From [w] to [w'] the circuit [d] was continued by the circuit [st], applied to the qubits [ids]: simulating
    [d] in [w'] gives what simulating it in [w] gives, changed by the operator of [st] on these qubits. *)
Definition applied (rnd : nat -> R) (w w' : world R) (d : nat) (st : scirc Ccring) (ids : list nat) : Prop :=
  exists sd sd' ts, seen w d = Some sd /\ seen w' d = Some sd' /\ sc_qubits Ccring sd' = sc_qubits Ccring sd /\ at_positions sd ids ts /\
    forall le, (exists M, operator le st M) /\
      forall M, operator le st M -> unitary (2 ^ SimModel.num_qubits Ccring st) M /\
        continues (fun c => simulate_C rnd c false le) sd sd' (acts_on le (SimModel.num_qubits Ccring sd) M ts).

(** Specifications for C67: which gate a class name stands for, what an operation of a circuit looks like to
    the simulator, and when a circuit can be simulated. *)
From Coq Require Import List ZArith NArith String Bool Reals.
From Verif Require Import Py Cplx SimModel GateModel RegisterModel WorldModel WorldSpec WorldSpec4 LinkModel.
Import ListNotations.
Local Open Scope nat_scope.
Local Open Scope string_scope.

(** One-qubit gates by name and parameters. *)
Inductive stands1 : string -> list R -> gate1 -> Prop :=
| st_I : stands1 "Identity" [] GIdentity
| st_X : stands1 "X" [] GX
| st_Y : stands1 "Y" [] GY
| st_Z : stands1 "Z" [] GZ
| st_H : stands1 "Hadamard" [] GHadamard
| st_S : stands1 "S" [] GS
| st_T : stands1 "T" [] GT
| st_RX a : stands1 "RX" [a] (GRX a)
| st_RY a : stands1 "RY" [a] (GRY a)
| st_RZ a : stands1 "RZ" [a] (GRZ a)
| st_Rot a b c : stands1 "Rotation" [a; b; c] (GRotation a b c).

(** A name beginning with C is the controlled gate, apart from the three-qubit gates. *)
Inductive stands : string -> list R -> gate -> Prop :=
| st_one n ps g : stands1 n ps g -> stands n ps (GOne g)
| st_ctrl n ps g : stands1 n ps g -> stands ("C" ++ n) ps (GC g)
| st_SWAP : stands "SWAP" [] GSWAP
| st_CSWAP : stands "CSWAP" [] GCSWAP
| st_CCX : stands "CCX" [] GCCX.

(** Operation [o] of the heap and what the simulator sees of it. *)
Definition shown (w : world R) (o : nat) (s : sop Ccring) : Prop :=
  exists y k qs, nth_error (w_op w) o = Some y /\ nth_error (w_cls w) (o_cls y) = Some k /\
    o_qubits y = Some (map IQubit qs) /\ so_qubits Ccring s = Some qs /\
    match o_cond y with Some l => l = map IBit (so_cond Ccring s) | None => so_cond Ccring s = [] end /\
    match so_kind Ccring s with
    | KMeasure _ mid bs => k_name k = "Measurement" /\ mid = o /\ o_bits y = option_map (map IBit) bs
    | g => exists ps gt, o_params y = map PNum ps /\ stands (k_name k) ps gt /\ g = gate_kind gt
    end.

Definition controlled (k : cls) : Prop := k_kind k = KCtrl \/ k_kind k = KParCtrl.

(** What construction does not guarantee: every operation is of a library class, has qubits, which do not
    repeat unless it is a measurement; controlled operations have two qubits; parameters that may still be
    variables have been replaced by numbers; the bits of measurements and conditions are bits.  The
    parameters are missing only if the constructor failed. *)
Record ready (w : world R) (x : circ) (o : nat) (y : opobj R) : Prop := {
  rd_class : o_cls y < List.length library;
  rd_qubits : exists qs, o_qubits y = Some qs /\
    forall k, nth_error (w_cls w) (o_cls y) = Some k ->
      (k_kind k <> KMeas -> NoDup qs) /\ (controlled k -> List.length qs = 2);
  rd_params : forall k, nth_error (w_cls w) (o_cls y) = Some k -> has_params (k_kind k) = true ->
    o_params y <> [] /\ (c_par x = true \/ controlled k -> Forall (number R) (o_params y));
  rd_bits : forall l, o_bits y = Some l -> Forall is_bit l;
  rd_cond : forall l, o_cond y = Some l -> Forall is_bit l
}.

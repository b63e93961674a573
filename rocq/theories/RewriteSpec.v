(** Specification for C80: replacing parts of a circuit by parts with the same effect. *)
From Coq Require Import List NArith Bool Reals.
From Verif Require Import Py CRing Cplx KernelSpec SimModel SimSpec CallSpec GateModel.
Import ListNotations.
Local Open Scope N_scope.

(** [w] is [v] up to the phase [z]. *)
Definition phased (n : N) (z : C) (v w : N -> C) : Prop := Cnorm2 z = 1%R /\ forall i, i < 2 ^ n -> w i = Cmul z (v i).

(** Some operations of [c] as a circuit on the same qubits, without their conditions. *)
Definition part (c : scirc Ccring) (ops : list (sop Ccring)) : scirc Ccring := mkScirc Ccring (sc_qubits Ccring c) (map uncond ops).

(** The matrix of [B] in [d] is that of [A] in [c], up to a phase. *)
Definition same_effect (c : scirc Ccring) (A : list (sop Ccring)) (d : scirc Ccring) (B : list (sop Ccring)) : Prop :=
  exists M L z, operator false (part c A) M /\ operator false (part d B) L /\ Cnorm2 z = 1%R /\
    forall r s, r < 2 ^ num_qubits Ccring c -> s < 2 ^ num_qubits Ccring c -> L r s = Cmul z (M r s).

(** The same gate, or measurements into the same bits. *)
Definition alike (k k' : kind Ccring) : Prop :=
  match k, k' with
  | KMeasure _ _ bits, KMeasure _ _ bits' => bits' = bits
  | KMeasure _ _ _, _ => False
  | _, _ => k' = k
  end.
Definition same_op (c : scirc Ccring) (o : sop Ccring) (d : scirc Ccring) (p : sop Ccring) : Prop :=
  alike (so_kind Ccring o) (so_kind Ccring p) /\ so_cond Ccring p = so_cond Ccring o /\ exists ts, placed c o ts /\ placed d p ts.

(** The second list comes from the first by replacing some runs of gates under one condition by others of the same effect. *)
Inductive rewritten (c d : scirc Ccring) : list (sop Ccring) -> list (sop Ccring) -> Prop :=
| rewritten_end : rewritten c d [] []
| rewritten_same o p l l' : same_op c o d p -> rewritten c d l l' -> rewritten c d (o :: l) (p :: l')
| rewritten_part cond A B l l' :
    (forall o, In o (A ++ B) -> so_cond Ccring o = cond /\ is_measure (so_kind Ccring o) = false) ->
    same_effect c A d B -> rewritten c d l l' -> rewritten c d (A ++ l) (B ++ l').

(** A gate of the library on some of the qubits [qs], picked by number. *)
Definition on (qs cond : list nat) (s : gate * list nat) : sop Ccring :=
  mkSop Ccring (gate_kind (fst s)) (Some (map (fun k => nth k qs 0%nat) (snd s))) cond.

(** Identities between sequences of library gates, with the number of qubits they concern; the last argument is the
    phase by which the second sequence differs. *)
Definition one (g : gate1) : gate * list nat := (GOne g, [0%nat]).
Definition two (g : gate1) : gate * list nat := (GC g, [0; 1]%nat).
Inductive identity : nat -> list (gate * list nat) -> list (gate * list nat) -> C -> Prop :=
| id_none : identity 1 [one GIdentity] [] C1
| id_twice g : In g [GX; GY; GZ; GHadamard] -> identity 1 [one g; one g] [] C1
| id_twice_controlled g : In g [GX; GY; GZ; GHadamard] -> identity 2 [two g; two g] [] C1
| id_swap : identity 2 [(GSWAP, [0; 1]%nat); (GSWAP, [0; 1]%nat)] [] C1
| id_cswap : identity 3 [(GCSWAP, [0; 1; 2]%nat); (GCSWAP, [0; 1; 2]%nat)] [] C1
| id_ccx : identity 3 [(GCCX, [0; 1; 2]%nat); (GCCX, [0; 1; 2]%nat)] [] C1
| id_ss : identity 1 [one GS; one GS] [one GZ] C1
| id_tt : identity 1 [one GT; one GT] [one GS] C1
| id_rx a b : identity 1 [one (GRX a); one (GRX b)] [one (GRX (a + b))] C1
| id_ry a b : identity 1 [one (GRY a); one (GRY b)] [one (GRY (a + b))] C1
| id_rz a b : identity 1 [one (GRZ a); one (GRZ b)] [one (GRZ (a + b))] C1
| id_crx a b : identity 2 [two (GRX a); two (GRX b)] [two (GRX (a + b))] C1
| id_cry a b : identity 2 [two (GRY a); two (GRY b)] [two (GRY (a + b))] C1
| id_crz a b : identity 2 [two (GRZ a); two (GRZ b)] [two (GRZ (a + b))] C1
| id_hzh : identity 1 [one GHadamard; one GZ; one GHadamard] [one GX] C1
| id_xpi : identity 1 [one (GRX PI)] [one GX] Ci
| id_ypi : identity 1 [one (GRY PI)] [one GY] Ci
| id_zpi : identity 1 [one (GRZ PI)] [one GZ] Ci
| id_s : identity 1 [one (GRZ (PI / 2))] [one GS] (Cexp (PI / 4))
| id_t : identity 1 [one (GRZ (PI / 4))] [one GT] (Cexp (PI / 8))
| id_xy : identity 1 [one GX; one GY] [one GZ] Ci
| id_turn a : identity 1 [one GX; one (GRZ a); one GX] [one (GRZ (- a))] C1
| id_cz : identity 2 [two GZ] [(GC GZ, [1; 0]%nat)] C1
| id_steps g steps : decomposition g = Some steps ->
    identity (match g with GOne _ => 1 | GSWAP | GC _ => 2 | _ => 3 end) [(g, match g with GOne _ => [0] | GSWAP | GC _ => [0; 1] | _ => [0; 1; 2] end)%nat] steps C1.

(** Specifications for C70: when the text written for a circuit has a meaning. *)
From Coq Require Import List ZArith NArith String Bool Reals.
From Verif Require Import Py CRing Cplx SimModel SimSpec SimReal StateModel StateSpec GateModel QasmModel QasmSpec QelibSpec LinkModel RegisterModel WorldModel WorldSpec WorldSpec4 LinkSpec ExportModel ExportSpec.
Import ListNotations.
Local Open Scope nat_scope.
Local Open Scope string_scope.

(** An operation that can be simulated, is no measurement and has no condition; the texts of its parameters are written
    without punctuation and denote the parameters. *)
Record writable (value : string -> option R) (show : param R -> string) (w : world R) (x : circ) (o : nat) (y : opobj R) : Prop := {
  wr_ready : ready w x o y;
  wr_gate : ~ has_name R w y "Measurement";
  wr_cond : o_cond y = None;
  wr_text : Forall (fun q => plain (show q) /\ forall a, q = PNum a -> value (show q) = Some a) (o_params y)
}.

(** Without definitions in the text: the included file defines every gate that is used. *)
Definition all_defined (w : world R) (x : circ) (D : list gdef) : Prop :=
  forall o n q k, In o (c_ops x) -> named_op R w o n -> In (n, (q, k)) qasm_names -> In q (map d_name D).
(** With definitions in the text: the file does not define [swap] and [cswap], which are used once at most, Rotation and
    CRotation are not used, and the file defines the other gates that are used. *)
Definition others_defined (w : world R) (x : circ) (D : list gdef) : Prop :=
  ~ In "swap" (map d_name D) /\ ~ In "cswap" (map d_name D) /\
  forall ns, Forall2 (named_op R w) (c_ops x) ns ->
    ~ In "Rotation" ns /\ ~ In "CRotation" ns /\ count_occ string_dec ns "SWAP" <= 1 /\ count_occ string_dec ns "CSWAP" <= 1 /\
    forall n q k, In n ns -> In (n, (q, k)) qasm_names -> q = "swap" \/ q = "cswap" \/ In q (map d_name D).
(** The labels of the registers are words, all different. *)
Definition labels_fit (lstr : label -> string) (x : circ) : Prop :=
  Forall (fun l => label_true l = true /\ word (lstr l)) (map fst (s_regs (c_q x)) ++ map fst (s_regs (c_b x))) /\
  NoDup (map lstr (map fst (s_regs (c_q x)) ++ map fst (s_regs (c_b x)))).

(** The circuit is written, the text has a meaning, and up to a phase that depends on the circuit only it is what the
    operations of the circuit do to any state; so from the zero state it leads to the state that [simulate] stores. *)
Definition meant (value : string -> option R) (show : param R -> string) (lstr : label -> string) (labels defs : bool) (D : list gdef)
    (v : world R) (c : nat) (x : circ) : Prop :=
  exists a s prims, qasm_circuit R v c = Some a /\ to_qasm (param R) show label label_true lstr "2.0" labels defs a = Ok s /\
    program value D s = Some prims /\
    exists sc, seen v c = Some sc /\ circuit_qubits x = map IQubit (sc_qubits Ccring sc) /\ Forall2 (shown v) (c_ops x) (sc_ops Ccring sc) /\
    forall le, exists z, Cnorm2 z = 1%R /\
      (forall bits u w, runs le sc bits (sc_ops Ccring sc) u w ->
        forall i, (i < 2 ^ SimModel.num_qubits Ccring sc)%N -> QelibSpec.run le (SimModel.num_qubits Ccring sc) prims u i = Cmul z (w i)) /\
      (List.length (circuit_qubits x) <= 30 -> forall rnd m st, (forall k, uniform (rnd k)) -> exists w,
        simulate_set rnd sc false le m st = (m, mkCst (Some (mkArr [2 ^ N.of_nat (List.length (circuit_qubits x))]%N w)) None, Ok tt) /\
        forall i, (i < 2 ^ SimModel.num_qubits Ccring sc)%N ->
          QelibSpec.run le (SimModel.num_qubits Ccring sc) prims (zero_state Ccring) i = Cmul z (w i)).

(** Specifications for C71: circuits whose QIR program is about the circuit's qubits and bits in order. *)
From Coq Require Import List ZArith NArith String Bool Arith Reals.
From Verif Require Import Py CRing Cplx SimModel SimSpec StateModel QirModel QirSpec QirSemSpec QirMeantSpec RegisterModel WorldModel WorldSpec WorldSpec4 LinkModel LinkSpec ExportModel ExportSpec.
Import ListNotations.
Local Open Scope nat_scope.

(** At most one register has something in it. *)
Definition one_used (rs : list (label * register)) : Prop :=
  forall a b, In a rs -> In b rs -> contents (snd a) <> [] -> contents (snd b) <> [] -> a = b.
(** A gate of the base profile that can be simulated and compiled, without condition. *)
Record base_op (pnum : param R -> bool) (w : world R) (x : circ) (o : nat) (y : opobj R) : Prop := {
  bo_ready : ready w x o y;
  bo_comp : compilable R pnum false w y;
  bo_cond : o_cond y = None
}.
(** A measurement into as many bits as qubits, or more, without condition. *)
Record meas_op (w : world R) (x : circ) (o : nat) (y : opobj R) : Prop := {
  mo_ready : ready w x o y;
  mo_meas : measurable R w x y;
  mo_cond : o_cond y = None;
  mo_bits : forall qs bs, o_qubits y = Some qs -> o_bits y = Some bs -> List.length qs <= List.length bs
}.

(** The circuit compiles to one function; simulating the circuit does what the function does. *)
Definition qir_meant (pnum : param R -> bool) (dbl : param R -> R) (ext : bool) (v : world R) (c : nat) (x : circ) (meas : list nat) : Prop :=
  exists q calls sc bits measured ms, qir_circuit R v c = Some q /\ to_qir_calls (param R) pnum R dbl q ext = Ok [mkMain R calls true] /\
    seen v c = Some sc /\ circuit_qubits x = map IQubit (sc_qubits Ccring sc) /\ Forall2 (shown v) (c_ops x) (sc_ops Ccring sc) /\
    circuit_bits x = map IBit bits /\ Forall2 (measures R v) meas ms /\ map snd (List.concat ms) = map IBit measured /\
    same_runs sc bits measured (memory v) calls.

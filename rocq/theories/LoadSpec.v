(** Specification of loading a QIR module into a circuit. *)
From Coq Require Import List ZArith String Bool Arith.
From Verif Require Import Py QirModel QirSpec LinkModel RegisterModel WorldModel WorldSpec WorldSpec4 LinkSpec ExportSpec LoadModel.
Import ListNotations.
Local Open Scope nat_scope.
Local Open Scope string_scope.
Local Open Scope list_scope.

Section LoadSpec.
Variable P : Type.
Notation world := (world P).

(** The calls of a module that are read: in each function those before the first return. *)
Fixpoint until_return (l : list (instr P)) : list (QirModel.call P) :=
  match l with
  | [] => []
  | ICall _ k :: l' => k :: until_return l'
  | IOther _ :: l' => until_return l'
  | IRet _ :: _ => []
  end.
Definition calls_read (fs : list (func P)) : list (QirModel.call P) := List.concat (map (fun f => until_return (List.concat f)) fs).

(** The functions that are read as operations: those that operations are written as (QirSpec.v) and two more. *)
Definition read_as : list (string * string) :=
  function_of ++ [("Identity", "__quantum__qis__id__body"); ("CX", "__quantum__qis__cx__body")].

(** The arguments of a call by kind. *)
Definition doubles (l : list (QirModel.carg P)) : list P := flat_map (fun a => match a with CDouble _ d => [d] | _ => [] end) l.
Definition places (l : list (QirModel.carg P)) : list nat := flat_map (fun a => match a with CQubit _ i => [i] | _ => [] end) l.
Definition results (l : list (QirModel.carg P)) : list nat := flat_map (fun a => match a with CResult _ i => [i] | _ => [] end) l.

(** Why a class refuses so many parameters and qubits: it takes no parameters, or one; controlled classes want a qubit; and the
    number of qubits, if the class has it, has to be right. *)
Definition miscounted (kx : cls) (nq : nat) : option exn :=
  match k_numq kx with Some n => if Nat.eqb nq n then None else Some ValueError | None => None end.
Definition refusal (kx : cls) (np nq : nat) : option exn :=
  match k_kind kx with
  | KPlain => if Nat.eqb np 0 then miscounted kx nq else Some TypeError
  | KParam => if Nat.eqb np 1 then (match k_nparams kx with Some 1 => miscounted kx nq | _ => Some ValueError end) else Some TypeError
  | KCtrl => if Nat.leb np 2 then (if Nat.eqb nq 0 then Some TypeError else miscounted kx nq) else Some TypeError
  | KParCtrl => if (Nat.leb 1 np && Nat.leb np 3)%bool
      then (match k_nparams kx with Some 1 => if Nat.eqb nq 0 then Some TypeError else miscounted kx nq | _ => Some ValueError end)
      else Some TypeError
  | KMeas => Some TypeError
  end.

(** The class of the library with this name, as it is in the heap. *)
Definition named_class (w : world) (n : string) (kx : cls) : Prop :=
  exists k x, nth_error library_classes k = Some x /\ k_name x = n /\ nth_error (w_cls w) k = Some kx.

(** What a list of calls asks for: gates with their parameters and the places of their qubits, the places of measured qubits
    and of the bits they are stored in, and how reading ends. *)
Definition gate : Type := (string * list P * list nat)%type.
Inductive asks (w : world) : list (QirModel.call P) -> list gate -> list nat -> list nat -> option exn -> Prop :=
| ask_nil : asks w [] [] [] [] None
| ask_other u args ks gs mq mb e : is_qis u = false -> asks w ks gs mq mb e -> asks w (Call P u args :: ks) gs mq mb e
| ask_unknown u args ks : is_qis u = true -> (forall n, ~ In (n, u) read_as) -> asks w (Call P u args :: ks) [] [] [] (Some TypeError)
| ask_measure u args ks gs mq mb e : In ("Measurement", u) read_as -> asks w ks gs mq mb e ->
    asks w (Call P u args :: ks) gs (places args ++ mq) (results args ++ mb) e
| ask_refused u args ks n kx e : In (n, u) read_as -> n <> "Measurement" -> named_class w n kx ->
    refusal kx (List.length (doubles args)) (List.length (places args)) = Some e ->
    asks w (Call P u args :: ks) [] [] [] (Some e)
| ask_gate u args ks n kx gs mq mb e : In (n, u) read_as -> n <> "Measurement" -> named_class w n kx ->
    refusal kx (List.length (doubles args)) (List.length (places args)) = None ->
    asks w ks gs mq mb e -> asks w (Call P u args :: ks) ((n, doubles args, places args) :: gs) mq mb e.

(** No context is active and nothing waits for the end of one; the circuit's own context is not frozen. *)
Record idle (w : world) (c : nat) (x : circ) : Prop := {
  id_circ : nth_error (w_circ w) c = Some x;
  id_act : w_active w = None;
  id_exit : w_exit w = [];
  id_ctx : forall a, c_ctx x = Some a -> nth_error (w_ctx w) a = Some (c, false)
}.

(** Worlds after a program that uses the library's own calls on the library's classes and classes of the user's. *)
Definition ended (ptrue : P -> bool) (peqb : P -> P -> bool) (more : list cls) (w : world) : Prop :=
  exists p, executes P ptrue peqb (both_ok P ptrue peqb) p (start P (library_classes ++ more)%list) /\ fst (run ptrue peqb p (start P (library_classes ++ more)%list)) = w.

(** From [w] and its circuit [x] to [w'] and [x']: the classes, the variables, the operations that were there and the other
    circuits are the same; the circuit has new qubits, new bits and the new operations [os] at its ends. *)
Record loaded (c : nat) (w : world) (x : circ) (w' : world) (x' : circ) (os : list nat) : Prop := {
  ld_cls : w_cls w' = w_cls w;
  ld_op : exists zs, w_op w' = w_op w ++ zs;
  ld_qubit : exists ls, w_qubit w' = w_qubit w ++ ls /\ circuit_qubits x' = circuit_qubits x ++ map IQubit (seq (List.length (w_qubit w)) (List.length ls));
  ld_bit : exists ls, w_bit w' = w_bit w ++ map (fun l => (l, None)) ls /\ circuit_bits x' = circuit_bits x ++ map IBit (seq (List.length (w_bit w)) (List.length ls));
  ld_var : w_var w' = w_var w;
  ld_len : List.length (w_circ w') = List.length (w_circ w);
  ld_other : forall d, d <> c -> nth_error (w_circ w') d = nth_error (w_circ w) d;
  ld_ops : c_ops x' = c_ops x ++ os;
  ld_new : Forall (fun o => List.length (w_op w) <= o < List.length (w_op w')) os;
  ld_par : c_par x' = c_par x /\ c_vars x' = c_vars x
}.
(** A side of a circuit that can get new items at its end: they go to the first register. *)
Definition fits (s : side) : Prop :=
  s_regs s = [] \/ exists l r t, s_regs s = (l, r) :: t /\ frozen_ r = Some false /\ Forall (fun q => contents (snd q) = []) t.

(** Operation [o] is the gate on the qubits at these places of the circuit.  Parameters that the class does not have are
    dropped. *)
Definition holds_gate (w : world) (x : circ) (g : gate) (o : nat) : Prop :=
  let '(n, ps, js) := g in
  exists y kx l, nth_error (w_op w) o = Some y /\ nth_error library_classes (o_cls y) = Some kx /\ k_name kx = n /\
    o_qubits y = Some l /\ Forall2 (fun j q => nth_error (circuit_qubits x) j = Some q) js l /\
    o_params y = map PNum (firstn (match k_nparams kx with Some m => m | None => 0 end) ps) /\ o_bits y = None /\ o_cond y = None.
Definition holds_measurement (w : world) (x : circ) (mq mb : list nat) (o : nat) : Prop :=
  exists y kx l l', nth_error (w_op w) o = Some y /\ nth_error library_classes (o_cls y) = Some kx /\ k_name kx = "Measurement" /\
    o_qubits y = Some l /\ Forall2 (fun j q => nth_error (circuit_qubits x) j = Some q) mq l /\
    o_bits y = Some l' /\ Forall2 (fun j b => nth_error (circuit_bits x) j = Some b) (firstn (List.length mq) mb) l' /\ o_cond y = None /\ o_params y = [].
(** The same, but without bits. *)
Definition holds_unstored (w : world) (x : circ) (mq : list nat) (o : nat) : Prop :=
  exists y kx l, nth_error (w_op w) o = Some y /\ nth_error library_classes (o_cls y) = Some kx /\ k_name kx = "Measurement" /\
    o_qubits y = Some l /\ Forall2 (fun j q => nth_error (circuit_qubits x) j = Some q) mq l /\ o_bits y = None.

(** The places of qubits and results in calls. *)
Definition below (N : nat) (k : QirModel.call P) : Prop :=
  let (_, args) := k in Forall (fun j => j < N) (places args) /\ Forall (fun j => j < N) (results args).
(** There can be so many more qubits, or bits, than these: they have a place, or it can be added. *)
Definition roomy (s : side) (N : nat) : Prop := fits s \/ N <= List.length (all_items (s_regs s)).

(** How loading ends: with the gates asked for, in order, and at the end the measurement, if one was asked for. *)
Inductive loads (w : world) (x : circ) (c : nat) (gs : list gate) (mq mb : list nat) : option exn -> list nat -> res nat -> Prop :=
| loads_refused e os : Forall2 (holds_gate w x) gs os -> loads w x c gs mq mb (Some e) os (Err e)
| loads_gates os : mq = [] -> Forall2 (holds_gate w x) gs os -> loads w x c gs mq mb None os (Ok c)
| loads_missing os j : In j mq -> List.length (circuit_qubits x) <= j -> Forall2 (holds_gate w x) gs os -> loads w x c gs mq mb None os (Err IndexError)
| loads_few_bits os o : mq <> [] -> Forall (fun j => j < List.length (circuit_qubits x)) mq -> List.length mb < List.length mq ->
    Forall2 (holds_gate w x) gs os -> holds_unstored w x mq o -> loads w x c gs mq mb None (os ++ [o]) (Err ValueError)
| loads_measurement os o : mq <> [] -> Forall (fun j => j < List.length (circuit_qubits x)) mq -> List.length mq <= List.length mb ->
    Forall2 (holds_gate w x) gs os -> holds_measurement w x mq mb o -> loads w x c gs mq mb None (os ++ [o]) (Ok c).

(** The world with one more circuit, which is empty. *)
Definition empty_circuit : circ := mkCirc [] (mkSide [] None) (mkSide [] None) false None false [] false.
Definition one_more (w : world) : world := set_circ w (w_circ w ++ [empty_circuit]).
End LoadSpec.

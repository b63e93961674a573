(** Properties C50-C55: compiling to QIR and loading it. *)
From Coq Require Import List String Bool Arith Lia.
From Verif Require Import Py QirModel QirSpec QirProofs QirProofs2 QirProofs3 QirProofs4 QirProofs5.
Import ListNotations.
Local Open Scope string_scope.
Local Open Scope list_scope.

(** For the examples: parameters and doubles are numbers, all of them numeric. *)
Definition num (n : nat) : bool := true.
Definition dub (n : nat) : nat := n.
Definition op1 (n : string) (ps qs : list nat) : qop nat :=
  mkOp nat n (match ps with [] => None | _ => Some ps end) (List.length qs) (List.length ps) (Some qs) None.
Definition measure (qs bs : list nat) : qop nat := mkOp nat "Measurement" None (List.length qs) 0 (Some qs) (Some bs).
(** Two qubits 5 and 3 and a bit 8. *)
Definition bell : qcircuit nat := mkC nat [[5; 3]] [[8]] [op1 "Hadamard" [] [5]; op1 "RX" [7] [3]; op1 "CX" [] [5; 3]; op1 "CY" [] [3; 5]; measure [3] [8]].
Definition compiled (c : qcircuit nat) : res (list (main nat)) := to_qir_calls nat num nat dub c true.
Definition reload (c : qcircuit nat) : res (lcircuit nat) := let? t := compiled c in load nat (fun _ => true) t.
Definition gcall (n : string) (ps qs : list nat) : call nat := Call nat (qis_name n) (map (CDouble nat) ps ++ map (CQubit nat) qs).
Definition mcall (q b : nat) : call nat := Call nat "__quantum__qis__mz__body" [CQubit nat q; CResult nat b].
Definition ocall (b : nat) : call nat := Call nat "__quantum__rt__result_record_output" [CResult nat b].

(** ** C50 *)
(** The compiled program calls the initialisation, then for each gate in order its function with the gate's
    parameters and the places of its qubits, then measures each measured qubit in order, then records the
    results in the same order. *)
Theorem C50_compiled_partial (P : Type) (pnum : P -> bool) (D : Type) (dbl : P -> D) : forall c ext t,
  to_qir_calls P pnum D dbl c ext = Ok t ->
  exists gates meas a b o, c_ops P c = gates ++ meas /\
    Forall (fun op => ~ is_measurement P op) gates /\ Forall (is_measurement P) meas /\
    t = [mkMain D (Call D "__quantum__rt__initialize" [] :: a ++ b ++ o) true] /\
    Forall2 (gate_call P D dbl c) gates a /\
    Forall2 (measure_call P D c) (List.concat (map (measured P) meas)) b /\
    Forall2 (output_call P D c) (List.concat (map (measured P) meas)) o.
Proof. exact (compiled_calls P pnum D dbl). Qed.
Print Assumptions C50_compiled_partial.
Example C50_compiled_case : compiled bell =
  Ok [mkMain nat [init_call nat; gcall "h" [] [0]; gcall "rx" [7] [1]; gcall "cnot" [] [0; 1]; gcall "cy" [] [1; 0]; mcall 1 0; ocall 0] true].
Proof. vm_compute. reflexivity. Qed.

(** Gates that the compiler can write followed by measurements of qubits into bits of the circuit compile. *)
Theorem C50_succeeds (P : Type) (pnum : P -> bool) (D : Type) (dbl : P -> D) : forall c ext gates meas,
  c_ops P c = gates ++ meas -> Forall (writable P pnum c ext) gates -> Forall (readable P c) meas ->
  exists t, to_qir_calls P pnum D dbl c ext = Ok t.
Proof. exact (compiles P pnum D dbl). Qed.
Print Assumptions C50_succeeds.
Example C50_succeeds_case : Forall (writable nat num bell true) (firstn 4 (c_ops nat bell)) /\ Forall (readable nat bell) (skipn 4 (c_ops nat bell)).
Proof.
  split.
  - assert (A : forall n ps qs nq np, In (n, (nq, np)) arity -> nq = List.length qs -> np = List.length ps -> Forall (fun q => In q [5; 3]) qs -> (In n extra -> ps = []) -> n <> "Measurement" ->
                writable nat num bell true (op1 n ps qs)).
    { intros n ps qs nq np Ha -> -> Hq Hx Hm. assert (Ep : params_of nat (op1 n ps qs) = ps) by (destruct ps; reflexivity).
      split; [exact Hm|]. split; [right; exists (List.length qs), (List.length ps); repeat split; auto; [cbn; congruence|now rewrite Ep]|].
      split; [apply Forall_forall; reflexivity|]. split; [exists qs; split; [reflexivity|exact Hq]|]. rewrite Ep. auto. }
    cbn [firstn c_ops bell]. do 4 (apply Forall_cons; [eapply A; [cbn; tauto|reflexivity|reflexivity|repeat (apply Forall_cons; [cbn; tauto|]); apply Forall_nil|cbn; intuition discriminate|discriminate]|]). apply Forall_nil.
  - repeat constructor. exists [3], [8]. repeat constructor; cbn; tauto.
Qed.

(** A gate after a measurement is refused. *)
Theorem C50_late_gate (P : Type) (pnum : P -> bool) (D : Type) : forall c ext pre op post qregs cregs,
  c = mkC P qregs cregs (pre ++ op :: post) ->
  (exists m, qir_module P pnum D (mkC P qregs cregs pre) ext = Ok m) -> Exists (is_measurement P) pre ->
  (In (o_name P op) (map fst arity) /\ (ext = true \/ ~ In (o_name P op) extra)) ->
  qir_module P pnum D c ext = Err ValueError.
Proof. exact (late_gate P pnum D). Qed.
Print Assumptions C50_late_gate.
Example C50_late_gate_case : let pre := [op1 "X" [] [5]; measure [5] [8]] in
  (exists m, qir_module nat num nat (mkC nat [[5; 3]] [[8]] pre) false = Ok m) /\ Exists (is_measurement nat) pre /\ In "Z" (map fst arity) /\ ~ In "Z" extra /\
  compiled (mkC nat [[5; 3]] [[8]] (pre ++ [op1 "Z" [] [3]])) = Err ValueError.
Proof.
  split; [eexists; vm_compute; reflexivity|]. split; [apply Exists_cons_tl, Exists_cons_hd; reflexivity|]. split; [cbn; tauto|]. split; [cbn; intuition discriminate|]. vm_compute. reflexivity.
Qed.

(** The full claim is false: an identity gate does not compile, although the table says that it is to be left
    out; and a measurement of two qubits is more than one instruction. *)
Theorem C50_identity_refuted : exists c q, c_ops nat c = [op1 "Identity" [] [q]] /\ In q (c_qubits nat c) /\ dget String.eqb "Identity" to_qir = Some (SKIP, "id") /\
  compiled c = Err NotImplementedError.
Proof. exists (mkC nat [[5]] [] [op1 "Identity" [] [5]]), 5. vm_compute. tauto. Qed.
Print Assumptions C50_identity_refuted.
Theorem C50_one_each_refuted : exists c cs, c_ops nat c = [measure [5; 3] [8; 9]] /\
  compiled c = Ok [mkMain nat (init_call nat :: cs) true] /\ cs = [mcall 0 0; mcall 1 1; ocall 0; ocall 1].
Proof. exists (mkC nat [[5; 3]] [[8; 9]] [measure [5; 3] [8; 9]]). eexists. vm_compute. auto. Qed.
Print Assumptions C50_one_each_refuted.

(** ** C51 *)
(** If all qubits are in one register and all bits in one register, one injective numbering is used in all
    calls. *)
Theorem C51_numbering_partial (P : Type) (pnum : P -> bool) (D : Type) (dbl : P -> D) : forall c ext t,
  NoDup (c_qubits P c) -> NoDup (c_bits P c) -> one_register (c_qregs P c) -> one_register (c_cregs P c) ->
  to_qir_calls P pnum D dbl c ext = Ok t ->
  exists qn bn : nat -> nat,
    (forall q q', In q (c_qubits P c) -> In q' (c_qubits P c) -> qn q = qn q' -> q = q') /\
    (forall b b', In b (c_bits P c) -> In b' (c_bits P c) -> bn b = bn b' -> b = b') /\
    exists gates meas a b o, c_ops P c = gates ++ meas /\
      t = [mkMain D (Call D "__quantum__rt__initialize" [] :: a ++ b ++ o) true] /\
      Forall2 (fun op k => exists u, k = Call D u (map (CDouble D) (map dbl (params_of P op)) ++ map (CQubit D) (map qn (qubits_of P op)))) gates a /\
      Forall2 (fun x k => k = Call D "__quantum__qis__mz__body" [CQubit D (qn (fst x)); CResult D (bn (snd x))]) (List.concat (map (measured P) meas)) b /\
      Forall2 (fun x k => k = Call D "__quantum__rt__result_record_output" [CResult D (bn (snd x))]) (List.concat (map (measured P) meas)) o.
Proof. exact (numbering P pnum D dbl). Qed.
Print Assumptions C51_numbering_partial.
Lemma one_register_one r : one_register [r].
Proof. intros [|[|i]] [|[|j]] a b; cbn; intros H H'; try discriminate; reflexivity. Qed.
Example C51_numbering_case : NoDup (c_qubits nat bell) /\ NoDup (c_bits nat bell) /\ one_register (c_qregs nat bell) /\ one_register (c_cregs nat bell) /\ exists t, compiled bell = Ok t.
Proof.
  split; [repeat constructor; cbn; intuition discriminate|]. split; [repeat constructor; cbn; tauto|]. split; [apply one_register_one|]. split; [apply one_register_one|]. eexists. vm_compute. reflexivity.
Qed.

(** The full claim is false: the qubits of two registers are numbered from 0 both, so a controlled gate between
    them becomes one on the same qubit twice; and likewise for bits. *)
Theorem C51_qubits_refuted : exists c q q', NoDup (c_qubits nat c) /\ In q (c_qubits nat c) /\ In q' (c_qubits nat c) /\ q <> q' /\
  c_ops nat c = [op1 "CX" [] [q; q']] /\ compiled c = Ok [mkMain nat [init_call nat; gcall "cnot" [] [0; 0]] true].
Proof.
  exists (mkC nat [[5]; [3]] [] [op1 "CX" [] [5; 3]]), 5, 3. split; [repeat constructor; cbn; intuition discriminate|]. vm_compute. intuition discriminate.
Qed.
Print Assumptions C51_qubits_refuted.
Theorem C51_bits_refuted : exists c b b', NoDup (c_bits nat c) /\ In b (c_bits nat c) /\ In b' (c_bits nat c) /\ b <> b' /\
  c_ops nat c = [measure [5; 3] [b; b']] /\ compiled c = Ok [mkMain nat [init_call nat; mcall 0 0; mcall 1 0; ocall 0; ocall 0] true].
Proof.
  exists (mkC nat [[5; 3]] [[8]; [9]] [measure [5; 3] [8; 9]]), 8, 9. split; [repeat constructor; cbn; intuition discriminate|]. vm_compute. intuition discriminate.
Qed.
Print Assumptions C51_bits_refuted.

(** ** C52 *)
(** If the qubits are in one register and the bits in one register, no gate that QIR lacks is used twice, and each
    measured qubit is not after the last qubit with a gate, then loading the compiled program gives the same
    gates on the same places in the same order, and the same measurements as one. *)
Theorem C52_round_trip_partial (P : Type) (pnum : P -> bool) (D : Type) (dbl : P -> D) (counted : string -> bool) : forall c ext t,
  one_register (c_qregs P c) -> one_register (c_cregs P c) -> Forall (proper P) (c_ops P c) ->
  NoDup (filter (fun n => existsb (String.eqb n) extra) (map (o_name P) (c_ops P c))) ->
  to_qir_calls P pnum D dbl c ext = Ok t ->
  (forall op q b, In op (c_ops P c) -> is_measurement P op -> In (q, b) (measured P op) ->
     exists g q' i j, In g (c_ops P c) /\ ~ is_measurement P g /\ In q' (qubits_of P g) /\
       nth_error (c_qubits P c) i = Some q /\ nth_error (c_qubits P c) j = Some q' /\ i <= j) ->
  NoDup (c_qubits P c) ->
  exists gates meas L gs qs bs, c_ops P c = gates ++ meas /\ Forall (fun op => ~ is_measurement P op) gates /\ Forall (is_measurement P) meas /\
    load D counted t = Ok L /\
    Forall2 (same_gate P D dbl c) gates gs /\
    Forall2 (fun x i => nth_error (c_qubits P c) i = Some (fst x)) (List.concat (map (measured P) meas)) qs /\
    Forall2 (fun x j => nth_error (c_bits P c) j = Some (snd x)) (List.concat (map (measured P) meas)) bs /\
    l_ops D L = gs ++ (match qs with [] => [] | _ => [LMeasure D qs bs] end) /\
    (forall k, k < l_nq D L <-> exists g j, In g gs /\ In j (gate_places D g) /\ k <= j).
Proof. exact (round_trip P pnum D dbl counted). Qed.
Print Assumptions C52_round_trip_partial.
Example C52_round_trip_case : NoDup (filter (fun n => existsb (String.eqb n) extra) (map (o_name nat) (c_ops nat bell))) /\
  (forall op q b, In op (c_ops nat bell) -> is_measurement nat op -> In (q, b) (measured nat op) ->
     exists g q' i j, In g (c_ops nat bell) /\ ~ is_measurement nat g /\ In q' (qubits_of nat g) /\
       nth_error (c_qubits nat bell) i = Some q /\ nth_error (c_qubits nat bell) j = Some q' /\ i <= j) /\
  reload bell = Ok (mkL nat 2 1 [LGate nat "Hadamard" [] [0]; LGate nat "RX" [7] [1]; LGate nat "CX" [] [0; 1]; LGate nat "CY" [] [1; 0]; LMeasure nat [1] [0]]).
Proof.
  split; [vm_compute; repeat constructor; cbn; tauto|]. split; [|vm_compute; reflexivity].
  intros op q b H Hm Hi. cbn in H. repeat destruct H as [<-|H]; try discriminate Hm; [|destruct H]. destruct Hi as [[= <- <-]|[]].
  exists (op1 "RX" [7] [3]), 3, 1, 1. cbn. intuition (discriminate || lia).
Qed.

(** The full claim is false: qubits of several registers are confused; qubits after the last gate's are lost; a
    measured qubit without a gate cannot be loaded; nor can a second use of an external gate; and two
    measurements become one. *)
Theorem C52_registers_refuted : exists c, NoDup (c_qubits nat c) /\ c_ops nat c = [op1 "X" [] [5]; op1 "X" [] [3]] /\
  reload c = Ok (mkL nat 1 0 [LGate nat "X" [] [0]; LGate nat "X" [] [0]]).
Proof. exists (mkC nat [[5]; [3]] [] [op1 "X" [] [5]; op1 "X" [] [3]]). split; [repeat constructor; cbn; intuition discriminate|]. vm_compute. auto. Qed.
Print Assumptions C52_registers_refuted.
Theorem C52_qubits_lost_refuted : exists c L, List.length (c_qubits nat c) = 3 /\ one_register (c_qregs nat c) /\ reload c = Ok L /\ l_nq nat L = 1.
Proof. exists (mkC nat [[5; 3; 4]] [] [op1 "X" [] [5]]). eexists. split; [reflexivity|]. split; [apply one_register_one|]. split; vm_compute; reflexivity. Qed.
Print Assumptions C52_qubits_lost_refuted.
Theorem C52_measured_refuted : exists c t, one_register (c_qregs nat c) /\ compiled c = Ok t /\ c_ops nat c = [measure [5] [8]] /\ reload c = Err IndexError.
Proof. exists (mkC nat [[5]] [[8]] [measure [5] [8]]). eexists. split; [apply one_register_one|]. split; [vm_compute; reflexivity|]. split; [reflexivity|]. vm_compute. reflexivity. Qed.
Print Assumptions C52_measured_refuted.
Theorem C52_external_refuted : exists c t, one_register (c_qregs nat c) /\ compiled c = Ok t /\ c_ops nat c = [op1 "CY" [] [5; 3]; op1 "CY" [] [3; 5]] /\ reload c = Err TypeError.
Proof. exists (mkC nat [[5; 3]] [] [op1 "CY" [] [5; 3]; op1 "CY" [] [3; 5]]). eexists. split; [apply one_register_one|]. split; [vm_compute; reflexivity|]. split; [reflexivity|]. vm_compute. reflexivity. Qed.
Print Assumptions C52_external_refuted.
Theorem C52_merged_refuted : exists c, c_ops nat c = [op1 "CX" [] [5; 3]; measure [5] [8]; measure [3] [9]] /\
  reload c = Ok (mkL nat 2 2 [LGate nat "CX" [] [0; 1]; LMeasure nat [0; 1] [0; 1]]).
Proof. exists (mkC nat [[5; 3]] [[8; 9]] [op1 "CX" [] [5; 3]; measure [5] [8]; measure [3] [9]]). vm_compute. auto. Qed.
Print Assumptions C52_merged_refuted.

(** ** C53 *)
(** A call of an external function has the kinds of arguments that the function was declared with exactly if the
    gate has no parameters. *)
Theorem C53_signature_partial (P : Type) (pnum : P -> bool) (D : Type) : forall c ext m,
  qir_module P pnum D c ext = Ok m -> Forall (proper P) (c_ops P c) ->
  exists gates meas, c_ops P c = gates ++ meas /\ Forall (is_measurement P) meas /\
    Forall2 (fun op i => (i_type P i = EXTERNAL <-> In (o_name P op) extra) /\
       (i_type P i = EXTERNAL -> exists f, i_ext P i = Some f /\ (f_kinds f = map (kind_of P) (i_args P i) <-> params_of P op = []))) gates (q_body P D m).
Proof. exact (signatures P pnum D). Qed.
Print Assumptions C53_signature_partial.
Lemma op1_proper n ps qs : In (n, (List.length qs, List.length ps)) arity -> proper nat (op1 n ps qs).
Proof. intros H. right. exists (List.length qs), (List.length ps). repeat split; auto; [cbn; congruence|destruct ps; reflexivity]. Qed.
Example C53_signature_case : let c := mkC nat [[5; 3; 4]] [] [op1 "CSWAP" [] [3; 5; 4]; op1 "CRX" [7] [5; 3]] in
  Forall (proper nat) (c_ops nat c) /\
  exists m, qir_module nat num nat c true = Ok m /\
    map (fun i => option_map f_kinds (i_ext nat i)) (q_body nat nat m) = [Some [KQ; KQ; KQ]; Some [KQ; KQ; KD]] /\
    map (fun i => map (kind_of nat) (i_args nat i)) (q_body nat nat m) = [[KQ; KQ; KQ]; [KD; KQ; KQ]].
Proof.
  split; [do 2 (apply Forall_cons; [apply op1_proper; cbn; tauto|]); apply Forall_nil|]. eexists. split; [vm_compute; reflexivity|]. vm_compute. auto.
Qed.

(** So a circuit with a gate with parameters that QIR lacks does not compile. *)
Theorem C53_parametrised (P : Type) (pnum : P -> bool) (D : Type) (dbl : P -> D) : forall c ext,
  Forall (proper P) (c_ops P c) -> (exists op, In op (c_ops P c) /\ In (o_name P op) extra /\ params_of P op <> []) ->
  forall t, to_qir_calls P pnum D dbl c ext <> Ok t.
Proof. exact (parametrised_fails P pnum D dbl). Qed.
Print Assumptions C53_parametrised.
Example C53_parametrised_case : let c := mkC nat [[5; 3]] [] [op1 "X" [] [3]; op1 "Rotation" [1; 2; 3] [5]] in
  Forall (proper nat) (c_ops nat c) /\ (exists op, In op (c_ops nat c) /\ In (o_name nat op) extra /\ params_of nat op <> []) /\ compiled c = Err TypeError.
Proof.
  split; [do 2 (apply Forall_cons; [apply op1_proper; cbn; tauto|]); apply Forall_nil|]. split; [|vm_compute; reflexivity]. exists (op1 "Rotation" [1; 2; 3] [5]). cbn. intuition discriminate.
Qed.

(** The full claim is false: the function is declared with the qubits first and called with the parameters first. *)
Theorem C53_signature_refuted : exists c m i f, qir_module nat num nat c true = Ok m /\ c_ops nat c = [op1 "CRX" [7] [5; 3]] /\ In i (q_body nat nat m) /\
  i_ext nat i = Some f /\ f_kinds f = [KQ; KQ; KD] /\ map (kind_of nat) (i_args nat i) = [KD; KQ; KQ].
Proof. exists (mkC nat [[5; 3]] [] [op1 "CRX" [7] [5; 3]]). eexists _, _, _. split; [vm_compute; reflexivity|]. split; [reflexivity|]. split; [left; reflexivity|]. vm_compute. auto. Qed.
Print Assumptions C53_signature_refuted.

(** ** C54 *)
(** After a successful compilation a forced one succeeds and writes the calls of the instructions that are not
    external. *)
Theorem C54_recompiled_partial (P D : Type) (dbl : P -> D) : forall force strict strict' m m1,
  compile P D dbl force strict m = (m1, Ok tt) ->
  exists old a b o m2, q_qir P D m1 = Some (old ++ [mkMain D (init_call D :: a ++ b ++ o) true]) /\
    List.length a = List.length (q_body P D m1) /\ List.length b = List.length (q_meas P D m1) /\ List.length o = List.length (q_out P D m1) /\
    compile P D dbl true strict' m1 = (m2, Ok tt) /\
    q_qir P D m2 = Some [mkMain D (init_call D :: survivors P D (q_body P D m1) a ++ survivors P D (q_meas P D m1) b ++ survivors P D (q_out P D m1) o) true].
Proof. exact (recompiled P D dbl). Qed.
Print Assumptions C54_recompiled_partial.
(** Without external instructions, any number of forced compilations writes the calls of the first. *)
Theorem C54_same_partial (P D : Type) (dbl : P -> D) : forall force strict m m1 ss s,
  compile P D dbl force strict m = (m1, Ok tt) ->
  Forall (fun x => i_type P x <> EXTERNAL) (q_body P D m1 ++ q_meas P D m1 ++ q_out P D m1) ->
  exists old cs, q_qir P D m1 = Some (old ++ [mkMain D cs true]) /\
    q_qir P D (fold_left (fun m s => fst (compile P D dbl true s m)) (ss ++ [s]) m1) = Some [mkMain D cs true].
Proof. exact (recompiled_often P D dbl). Qed.
Print Assumptions C54_same_partial.
Definition bell_module : qmodule nat nat := match qir_module nat num nat bell true with Ok m => m | Err _ => new_module nat nat 0 0 end.
Definition plain_bell : qmodule nat nat :=
  match qir_module nat num nat (mkC nat [[5; 3]] [[8]] [op1 "Hadamard" [] [5]; op1 "CX" [] [5; 3]; measure [3] [8]]) true with Ok m => m | Err _ => new_module nat nat 0 0 end.
Example C54_recompiled_case : exists m1 m2, compile nat nat dub false true bell_module = (m1, Ok tt) /\ compile nat nat dub true true m1 = (m2, Ok tt) /\
  q_qir nat nat m2 = Some [mkMain nat [init_call nat; gcall "h" [] [0]; gcall "rx" [7] [1]; gcall "cnot" [] [0; 1]; mcall 1 0; ocall 0] true].
Proof. eexists _, _. split; [vm_compute; reflexivity|]. split; vm_compute; reflexivity. Qed.
Example C54_same_case : exists m1, compile nat nat dub false true plain_bell = (m1, Ok tt) /\
  Forall (fun x => i_type nat x <> EXTERNAL) (q_body nat nat m1 ++ q_meas nat nat m1 ++ q_out nat nat m1) /\ List.length (q_body nat nat m1) = 2.
Proof. eexists. split; [vm_compute; reflexivity|]. split; [vm_compute; repeat constructor; discriminate|reflexivity]. Qed.
(** Whatever was called on a module before, and with whatever outcome: if it counts as compiled and its instructions
    other than external ones can be called, a forced compilation calls just these and keeps just these. *)
Theorem C54_history_partial (P D : Type) (dbl : P -> D) : forall nq nb xs strict a b o,
  let m := qruns P D dbl xs (new_module P D nq nb) in
  q_compiled P D m = true ->
  let keep := filter (fun x => negb (is_external P x)) in
  Forall2 (fun i k => execute P D dbl i = Ok k) (keep (q_body P D m)) a ->
  Forall2 (fun i k => execute P D dbl i = Ok k) (keep (q_meas P D m)) b ->
  Forall2 (fun i k => record_call P D i = Ok k) (keep (q_out P D m)) o ->
  exists m', compile P D dbl true strict m = (m', Ok tt) /\ q_qir P D m' = Some [mkMain D (init_call D :: a ++ b ++ o) true] /\
    q_body P D m' = keep (q_body P D m) /\ q_meas P D m' = keep (q_meas P D m) /\ q_out P D m' = keep (q_out P D m).
Proof. exact (recompile_history P D dbl). Qed.
Print Assumptions C54_history_partial.
Example C54_history_case :
  let x := mkI nat BASE "x" [AQubit nat 0] None in
  let bad := mkI nat EXTERNAL "cy" [AQubit nat 0] (Some (mkFn "cy" [KQ; KQ])) in
  let m := qruns nat nat dub [QAddInstr nat Body x; QReset nat false; QCompile nat false true; QCompile nat false true; QAddInstr nat Body bad; QAddInstr nat Body x] (new_module nat nat 2 0) in
  q_compiled nat nat m = true /\ q_body nat nat m = [x; bad; x] /\
  Forall2 (fun i k => execute nat nat dub i = Ok k) (filter (fun x => negb (is_external nat x)) (q_body nat nat m)) [gcall "x" [] [0]; gcall "x" [] [0]].
Proof. split; [vm_compute; reflexivity|]. split; [vm_compute; reflexivity|]. repeat constructor. Qed.

(** The full claim is false: a gate called through an external function is gone after the second compilation.
    Resetting a module that was never compiled fails, and it too has lost those gates. *)
Theorem C54_external_refuted : exists c m m1 m2, c_ops nat c = [op1 "CY" [] [5; 3]] /\ qir_module nat num nat c true = Ok m /\
  compile nat nat dub false true m = (m1, Ok tt) /\ q_qir nat nat m1 = Some [mkMain nat [init_call nat; gcall "cy" [] [0; 1]] true] /\
  compile nat nat dub true true m1 = (m2, Ok tt) /\ q_qir nat nat m2 = Some [mkMain nat [init_call nat] true].
Proof. exists (mkC nat [[5; 3]] [] [op1 "CY" [] [5; 3]]). eexists _, _, _. split; [reflexivity|]. split; [vm_compute; reflexivity|]. split; [vm_compute; reflexivity|]. split; [reflexivity|]. split; vm_compute; reflexivity. Qed.
Print Assumptions C54_external_refuted.
Theorem C54_reset_refuted : exists c m m1, c_ops nat c = [op1 "CY" [] [5; 3]] /\ qir_module nat num nat c true = Ok m /\ List.length (q_body nat nat m) = 1 /\
  reset nat nat false m = (m1, Err AttributeError) /\ q_body nat nat m1 = [].
Proof. exists (mkC nat [[5; 3]] [] [op1 "CY" [] [5; 3]]). eexists _, _. split; [reflexivity|]. split; [vm_compute; reflexivity|]. split; [reflexivity|]. split; vm_compute; reflexivity. Qed.
Print Assumptions C54_reset_refuted.

(** ** C55 *)
(** For any table of names in which no QIR name occurs twice, both tables read backwards give the gate. *)
Theorem C55_inverse : forall (t : table) g ty n, NoDup (map (fun x => snd (snd x)) t) -> In (g, (ty, n)) t ->
  dget String.eqb n (from_qir_of t) = Some g /\
  (ty <> DECOMPOSE -> ty <> INVALID -> n <> "cnot" -> dget String.eqb ("__quantum__qis__" ++ n ++ "__body")%string (from_qis_of t) = Some g).
Proof. exact names_inverse. Qed.
Print Assumptions C55_inverse.
Example C55_inverse_case : NoDup (map (fun x => snd (snd x)) to_qir) /\ In ("CCX", (EXTERNAL, "ccnot")) to_qir.
Proof. split; [vm_compute; repeat constructor; cbn; intuition discriminate|cbn; tauto]. Qed.
(** Every gate is called by a function that the loader reads as the gate, or by one that was declared again and
    renamed. *)
Theorem C55_emitted_partial (P : Type) (pnum : P -> bool) (D : Type) (dbl : P -> D) : forall c ext t,
  to_qir_calls P pnum D dbl c ext = Ok t ->
  exists gates meas a rest, c_ops P c = gates ++ meas /\ Forall (is_measurement P) meas /\
    t = [mkMain D (Call D "__quantum__rt__initialize" [] :: a ++ rest) true] /\
    Forall2 (fun op (k : call D) => let (u, _) := k in
       dget String.eqb u from_qis = Some (o_name P op) \/
       In (o_name P op) extra /\ exists f s, In (o_name P op, f) function_of /\ u = (f ++ "." ++ s)%string) gates a.
Proof. exact (emitted P pnum D dbl). Qed.
Print Assumptions C55_emitted_partial.
Example C55_emitted_case : exists t, compiled bell = Ok t /\ List.length (c_ops nat bell) = 5.
Proof. eexists. split; vm_compute; reflexivity. Qed.
(** The full claim is false: the second use of a gate that QIR lacks is called by a name the loader does not know. *)
Theorem C55_renamed_refuted : exists c u args k, c_ops nat c = [op1 "CY" [] [5; 3]; op1 "CY" [] [3; 5]] /\
  compiled c = Ok [mkMain nat [init_call nat; k; Call nat u args] true] /\ dget String.eqb u from_qis = None.
Proof. exists (mkC nat [[5; 3]] [] [op1 "CY" [] [5; 3]; op1 "CY" [] [3; 5]]). eexists _, _, _. split; [reflexivity|]. split; vm_compute; reflexivity. Qed.
Print Assumptions C55_renamed_refuted.

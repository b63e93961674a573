(** Property C69: circuits built with the library compile to QIR and are written as OpenQASM. *)
From Coq Require Import List ZArith String Bool Arith Lia.
From Verif Require Import Py QirModel QirSpec QasmModel QasmSpec LinkModel RegisterModel WorldModel WorldSpec WorldSpec4
  WorldCheck WorldNumq LinkSpec ExportModel ExportSpec ExportProofs2.
Import ListNotations.
Local Open Scope nat_scope.
Local Open Scope string_scope.

(** As long as nobody replaces the qubits of an operation, [num_qubits] of an operation is the number of its qubits,
    also for classes that take any number. *)
Theorem C57_reported_partial :
  forall P ptrue peqb ks p (v : world P) o y qs,
    executes P ptrue peqb (own_ok P) p (start P ks) -> visits P ptrue peqb p (start P ks) v ->
    nth_error (w_op v) o = Some y -> o_qubits y = Some qs -> o_numq y = Some (List.length qs).
Proof. exact numbers_kept. Qed.
Print Assumptions C57_reported_partial.

(** ** QIR: a circuit built in any way with the classes of the library, whose operations are gates that can be
    compiled followed by measurements into its bits, compiles.  The program initialises, calls for each gate in order
    the function of its name with its parameters and the places of its qubits in their registers, measures each
    measured qubit into its bit in order, and records the results in the same order. *)
Theorem C69_qir_partial :
  forall P ptrue peqb more p (v : world P),
    executes P ptrue peqb (both_ok P ptrue peqb) p (start P (library_classes ++ more)%list) ->
    visits P ptrue peqb p (start P (library_classes ++ more)%list) v -> small P v ->
    forall c x, nth_error (w_circ v) c = Some x ->
    forall D (dbl : param P -> D) pnum ext gates meas, c_ops x = (gates ++ meas)%list ->
    (forall o y, In o gates -> nth_error (w_op v) o = Some y -> compilable P pnum ext v y) ->
    (forall o y, In o meas -> nth_error (w_op v) o = Some y -> measurable P v x y) ->
    exists q a b r ms, qir_circuit P v c = Some q /\
      to_qir_calls (param P) pnum D dbl q ext = Ok [mkMain D (Call D "__quantum__rt__initialize" [] :: a ++ b ++ r) true]%list /\
      Forall2 (called P D dbl v x) gates a /\ Forall2 (measures P v) meas ms /\
      Forall2 (measured_call D x) (List.concat ms) b /\ Forall2 (recorded_call D x) (List.concat ms) r.
Proof. exact export_qir. Qed.
Print Assumptions C69_qir_partial.

(** ** OpenQASM: a circuit built in any way with the gate classes of the library is written, and what is written reads
    as its registers with their sizes and then one statement for each operation in order, with its name, its
    parameters and operands that name its qubits; before that, if asked for, the definitions that are offered, one for
    each use of a gate that has one. *)
Theorem C69_qasm_partial :
  forall P ptrue peqb more p (v : world P),
    executes P ptrue peqb (both_ok P ptrue peqb) p (start P (library_classes ++ more)%list) ->
    visits P ptrue peqb p (start P (library_classes ++ more)%list) v -> small P v ->
    forall c x, nth_error (w_circ v) c = Some x ->
    forall show lstr labels defs,
    (forall o y, In o (c_ops x) -> nth_error (w_op v) o = Some y -> complete P v y /\ ~ has_name P v y "Measurement" /\ Forall plain (map show (o_params y))) ->
    (labels = true -> Forall (fun l => label_true l = true /\ word (lstr l)) (map fst (s_regs (c_q x)) ++ map fst (s_regs (c_b x))) /\
       NoDup (map lstr (map fst (s_regs (c_q x)) ++ map fst (s_regs (c_b x))))) ->
    exists a s ds qs cs ss, qasm_circuit P v c = Some a /\
      to_qasm (param P) show label label_true lstr "2.0" labels defs a = Ok s /\
      QasmSpec.read s = Some (map LDef ds ++ map LQreg qs ++ map LCreg cs ++ map LStmt ss)%list /\
      NoDup (map fst (qs ++ cs)) /\ map snd qs = map (fun r => List.length (contents (snd r))) (s_regs (c_q x)) /\
      map snd cs = map (fun r => List.length (contents (snd r))) (s_regs (c_b x)) /\
      Forall2 (stated P show qs v x) (c_ops x) ss /\
      exists ns, Forall2 (named_op P v) (c_ops x) ns /\ ds = (if defs then List.concat (map offered ns) else []).
Proof. exact export_qasm. Qed.
Print Assumptions C69_qasm_partial.

(** ** Looking up a qubit or bit as the compiler is modelled to do it gives what [find_qubit] and [find_bit] give. *)
Theorem C69_find :
  forall P ptrue peqb more p (v : world P),
    executes P ptrue peqb (both_ok P ptrue peqb) p (start P (library_classes ++ more)%list) ->
    visits P ptrue peqb p (start P (library_classes ++ more)%list) v -> small P v ->
    forall c x, nth_error (w_circ v) c = Some x ->
    forall q0, qir_circuit P v c = Some q0 ->
      (forall q, agree v (find q (c_qregs _ q0)) (find_qubit c (IQubit q) v)) /\
      (forall b, agree v (find b (c_cregs _ q0)) (find_bit c (IBit b) v)).
Proof. exact export_find. Qed.
Print Assumptions C69_find.

(** Two qubits in two registers; a Hadamard, CX, RX and a measurement into a bit. *)
Definition eq_program (end_ : list (WorldModel.call Z)) : prog Z :=
  Seq (calls [CNew _ false (Some 1) (Some 1); CAddQReg _ 0 1 (LStr "anc")])
      (With 0 (calls ([CConstruct 4 None (AQ (Some [IQubit 0])); CConstruct 11 None (ACT (Some [IQubit 0]) (Some [IQubit 1]));
                       CConstruct 7 (Some [PNum 5%Z]) (AQ (Some [IQubit 1]))] ++ end_)%list)).
Definition measuring : prog Z := eq_program [CConstruct 22 None (AQ (Some [IQubit 1])); CStore _ 3 [IBit 0]].
Definition okb (w : world Z) (y : WorldModel.call Z) : bool :=
  classicalb Z ztrue Z.eqb w y && match y with CReset _ _ false | CSetQubits _ _ _ => false | _ => true end.
Lemma okb_sound w y : okb w y = true -> both_ok Z ztrue Z.eqb w y.
Proof.
  unfold okb. rewrite andb_true_iff. intros [H1 H2]. apply classicalb_sound in H1. split; [|exact H1].
  destruct y; try discriminate H2; cbn in *; repeat split; auto; try (destruct H1 as (H1 & _); exact H1); destruct keep; try discriminate; exact I.
Qed.
Definition zdbl (q : param Z) : Z := match q with PNum a => a | PVar _ => 0%Z end.
Definition znum (q : param Z) : bool := match q with PNum _ => true | PVar _ => false end.
Definition zend (p : prog Z) : world Z := fst (zrun p (zstart library_classes)).
Definition gc (n : string) (l : list (carg Z)) : QirModel.call Z := Call Z ("__quantum__qis__" ++ n ++ "__body") l.
Definition measuring_world : world Z := ltac:(let w := eval vm_compute in (zend measuring) in exact w).
Lemma measuring_eq : zend measuring = measuring_world. Proof. vm_compute. reflexivity. Qed.
Ltac is_complete := constructor; cbn;
  [repeat constructor
  |eexists; split; [reflexivity|]; intros k [= <-] [K|K]; try discriminate K; reflexivity
  |intros k [= <-]; cbn; try discriminate; intros _; discriminate].
Ltac not_named := let k := fresh in let A := fresh in let B := fresh in intros (k & A & B); cbn in A; injection A as <-; discriminate B.
Example C69_qir_case :
  executes Z ztrue Z.eqb (both_ok Z ztrue Z.eqb) measuring (zstart (library_classes ++ [])%list) /\
  visits Z ztrue Z.eqb measuring (zstart (library_classes ++ [])%list) (zend measuring) /\ small Z (zend measuring) /\
  snd (zrun measuring (zstart library_classes)) = Ok tt /\
  exists x, nth_error (w_circ (zend measuring)) 0 = Some x /\ c_ops x = ([0; 1; 2] ++ [3])%list /\
    (forall o y, In o [0; 1; 2] -> nth_error (w_op (zend measuring)) o = Some y -> compilable Z znum false (zend measuring) y) /\
    (forall o y, In o [3] -> nth_error (w_op (zend measuring)) o = Some y -> measurable Z (zend measuring) x y) /\
    exists q, qir_circuit Z (zend measuring) 0 = Some q /\
      to_qir_calls (param Z) znum Z zdbl q false = Ok [mkMain Z
        [Call Z "__quantum__rt__initialize" []; gc "h" [CQubit Z 0]; gc "cnot" [CQubit Z 0; CQubit Z 0];
         gc "rx" [CDouble Z 5%Z; CQubit Z 0]; gc "mz" [CQubit Z 0; CResult Z 0];
         Call Z "__quantum__rt__result_record_output" [CResult Z 0]] true].
Proof.
  rewrite app_nil_r. split; [|split; [|split; [|split; [|eexists; split; [|split; [|split; [|split]]]]]]].
  - apply (executesb_sound Z ztrue Z.eqb okb); [exact okb_sound|]. vm_compute. reflexivity.
  - right. left. reflexivity.
  - split; vm_compute; reflexivity.
  - vm_compute. reflexivity.
  - rewrite measuring_eq. reflexivity.
  - reflexivity.
  - rewrite measuring_eq. intros o y Ho Ey. cbn [In] in Ho. destruct Ho as [<-|[<-|[<-|[]]]]; cbn in Ey; injection Ey as <-;
      (split; [is_complete|split; [not_named|split; [not_named|split; [repeat constructor|]]]]);
      intros n (k & A & B) Hn; cbn in A; injection A as <-; cbn in B; subst n; cbn in Hn; intuition discriminate.
  - rewrite measuring_eq. intros o y Ho Ey. cbn [In] in Ho. destruct Ho as [<-|[]]; cbn in Ey; injection Ey as <-.
    split; [eexists; split; reflexivity|]. split; [cbn; lia|]. split; [eexists; reflexivity|].
    eexists; split; [reflexivity|]. constructor; [cbn; auto|constructor].
  - rewrite measuring_eq. eexists. split; vm_compute; reflexivity.
Qed.

Example C57_reported_case : exists y, nth_error (w_op (zend measuring)) 3 = Some y /\ o_qubits y = Some [IQubit 1] /\ o_numq y = Some 1 /\
  k_numq (nth (o_cls y) library_classes (mkCls "" KPlain None None None None)) = None.
Proof. rewrite measuring_eq. eexists. repeat (split; [reflexivity|]). reflexivity. Qed.
(** Replacing the qubits of a measurement leaves the number. *)
Theorem C57_reported_refuted :
  exists p y, p = calls [CNew Z false (Some 2) None; CConstruct 22 None (AQ (Some [IQubit 0])); CSetQubits _ 0 [IQubit 0; IQubit 1]] /\
    snd (zrun p (zstart library_classes)) = Ok tt /\ nth_error (w_op (zend p)) 0 = Some y /\ o_qubits y = Some [IQubit 0; IQubit 1] /\ o_numq y = Some 1.
Proof. eexists _, _. split; [reflexivity|]. split; [vm_compute; reflexivity|]. split; [vm_compute; reflexivity|]. split; reflexivity. Qed.
Print Assumptions C57_reported_refuted.
Example C69_find_case : exists q0, qir_circuit Z (zend measuring) 0 = Some q0 /\ find 1 (c_qregs _ q0) = Ok (1, 0) /\
  find_qubit 0 (IQubit 1) (zend measuring) = (zend measuring, Ok (1, LStr "anc", 0%Z)) /\
  find 7 (c_qregs _ q0) = Err ValueError /\ find_qubit 0 (IQubit 7) (zend measuring) = (zend measuring, Err ValueError).
Proof. rewrite measuring_eq. eexists. repeat (split; [vm_compute; reflexivity|]). vm_compute. reflexivity. Qed.

Definition zstr (l : label) : string := match l with LStr s => s | _ => "x" end.
Definition zshow (q : param Z) : string := match q with PNum _ => "5" | PVar _ => "v" end.
Definition writing : prog Z := eq_program [].
Definition writing_world : world Z := ltac:(let w := eval vm_compute in (zend writing) in exact w).
Lemma writing_eq : zend writing = writing_world. Proof. vm_compute. reflexivity. Qed.
Example C69_qasm_case :
  executes Z ztrue Z.eqb (both_ok Z ztrue Z.eqb) writing (zstart (library_classes ++ [])%list) /\
  visits Z ztrue Z.eqb writing (zstart (library_classes ++ [])%list) (zend writing) /\ small Z (zend writing) /\
  snd (zrun writing (zstart library_classes)) = Ok tt /\
  exists x, nth_error (w_circ (zend writing)) 0 = Some x /\ c_ops x = [0; 1; 2] /\
    (forall o y, In o (c_ops x) -> nth_error (w_op (zend writing)) o = Some y ->
       complete Z (zend writing) y /\ ~ has_name Z (zend writing) y "Measurement" /\ Forall plain (map zshow (o_params y))) /\
    (Forall (fun l => label_true l = true /\ word (zstr l)) (map fst (s_regs (c_q x)) ++ map fst (s_regs (c_b x))) /\
     NoDup (map zstr (map fst (s_regs (c_q x)) ++ map fst (s_regs (c_b x))))) /\
    exists a s, qasm_circuit Z (zend writing) 0 = Some a /\
      to_qasm (param Z) zshow label label_true zstr "2.0" true false a = Ok s /\
      QasmSpec.read s = Some ([LQreg ("qreg0", 1); LQreg ("anc", 1); LCreg ("creg0", 1); LStmt (mkS "h" [] [("qreg0", 0)]);
        LStmt (mkS "cx" [] [("qreg0", 0); ("anc", 0)]); LStmt (mkS "rx" ["5"] [("anc", 0)])]).
Proof.
  rewrite app_nil_r. split; [|split; [|split; [|split; [|eexists; split; [|split; [|split; [|split]]]]]]].
  - apply (executesb_sound Z ztrue Z.eqb okb); [exact okb_sound|]. vm_compute. reflexivity.
  - right. left. reflexivity.
  - split; vm_compute; reflexivity.
  - vm_compute. reflexivity.
  - rewrite writing_eq. reflexivity.
  - reflexivity.
  - rewrite writing_eq. intros o y Ho Ey. cbn [In c_ops] in Ho. destruct Ho as [<-|[<-|[<-|[]]]]; cbn in Ey; injection Ey as <-;
      (split; [is_complete|split; [not_named|repeat constructor]]).
  - cbn. split; [repeat constructor|]. repeat (apply NoDup_cons; [cbn; intuition discriminate|]). apply NoDup_nil.
  - rewrite writing_eq. eexists _, _. split; [vm_compute; reflexivity|]. split; [vm_compute; reflexivity|]. vm_compute. reflexivity.
Qed.

(** The places are places in registers: the two qubits above are both called 0.  And two things that construction does
    not guarantee: an operation without qubits makes the compiler fail, and so does CZ with three qubits. *)
Theorem C69_same_place_refuted :
  exists p x q t, executes Z ztrue Z.eqb (both_ok Z ztrue Z.eqb) p (zstart library_classes) /\
    nth_error (w_circ (zend p)) 0 = Some x /\ circuit_qubits x = [IQubit 0; IQubit 1] /\ qir_circuit Z (zend p) 0 = Some q /\
    to_qir_calls (param Z) znum Z zdbl q false = Ok t /\ exists l, t = [mkMain Z l true] /\ In (gc "cnot" [CQubit Z 0; CQubit Z 0]) l.
Proof.
  exists writing. eexists _, _, _. split; [apply (executesb_sound Z ztrue Z.eqb okb); [exact okb_sound|]; vm_compute; reflexivity|].
  rewrite writing_eq. split; [reflexivity|]. split; [reflexivity|]. split; [reflexivity|]. split; [reflexivity|].
  eexists. split; [reflexivity|]. cbn. auto.
Qed.
Print Assumptions C69_same_place_refuted.
Theorem C69_shape_refuted :
  exists p p' q q', executes Z ztrue Z.eqb (both_ok Z ztrue Z.eqb) p (zstart library_classes) /\
    executes Z ztrue Z.eqb (both_ok Z ztrue Z.eqb) p' (zstart library_classes) /\
    snd (zrun p (zstart library_classes)) = Ok tt /\ snd (zrun p' (zstart library_classes)) = Ok tt /\
    qir_circuit Z (zend p) 0 = Some q /\ to_qir_calls (param Z) znum Z zdbl q true = Err TypeError /\
    qir_circuit Z (zend p') 0 = Some q' /\ to_qir_calls (param Z) znum Z zdbl q' true = Err TypeError.
Proof.
  exists (calls [CNew _ false (Some 1) None; CConstruct 1 None (AQ None); CAppend _ 0 0]).
  exists (Seq (calls [CNew _ false (Some 3) None]) (With 0 (calls [CConstruct 13 None (AQ (Some [IQubit 0; IQubit 1; IQubit 2]))]))).
  eexists _, _. split; [apply (executesb_sound Z ztrue Z.eqb okb); [exact okb_sound|]; vm_compute; reflexivity|].
  split; [apply (executesb_sound Z ztrue Z.eqb okb); [exact okb_sound|]; vm_compute; reflexivity|].
  repeat (split; [vm_compute; reflexivity|]). vm_compute. reflexivity.
Qed.
Print Assumptions C69_shape_refuted.

(** Property C73: what a constructed, called or conditional operation is, and which constructions are accepted. *)
From Coq Require Import List ZArith Ascii String Bool Arith Lia Reals.
From Verif Require Import Py Cplx RegisterModel GateModel SimModel WorldModel WorldSpec WorldSpec2 WorldSpec3 WorldSpec4 WorldCheck PropsContext PropsReplay LinkModel LinkSpec PropsLink MakeSpec MakeProofs MakeProofs2 MakeProofs3 MakeCond.
Import ListNotations.
Local Open Scope string_scope.
Local Open Scope list_scope.
Local Open Scope nat_scope.

(** The constructor leaves one new object of its class, with control, target and qubits as the arguments say, the
    parameters given or, where they must be numbers, their values, without bits and without condition; a circuit that
    records gets it at its end, and nothing else happens. *)
Theorem C73_construct :
  forall P ptrue peqb (v v' : world P) k ps a o,
    reaches P ptrue peqb (fun _ _ => True) v -> construct ptrue k ps a v = (v', Ok o) ->
    exists x y, nth_error (w_cls v) k = Some x /\ one_new P v v' o y /\
      made P ptrue v k x (match ps with Some l => l | None => [] end) a y.
Proof. exact construct_made. Qed.
Print Assumptions C73_construct.

(** It does so just for what is described as accepted: parameters for the classes that have them and as many as the
    class has, control and target for controlled classes only, qubits when a context is active, as many qubits as the
    class wants; and, when a circuit records, qubits of this circuit, which is not locked, and parameters that have
    values unless the circuit takes variables. *)
Theorem C73_accepted_partial :
  forall P ptrue peqb (v : world P) k x ps a,
    reaches P ptrue peqb (fun w y => own_methods P w y /\ keeps_registers P y) v -> small P v -> nth_error (w_cls v) k = Some x ->
    ((exists o v', construct ptrue k ps a v = (v', Ok o)) <-> accepted P ptrue v x ps a).
Proof. exact accepted_iff. Qed.
Print Assumptions C73_accepted_partial.

(** An operation that is called makes another one of its class with its parameters, on the arguments given and, for
    those that are missing or empty, on its own. *)
Theorem C73_call :
  forall P ptrue peqb (v v' : world P) o a o',
    reaches P ptrue peqb (fun _ _ => True) v -> call_op ptrue o a v = (v', Ok o') ->
    exists y x a' z, nth_error (w_op v) o = Some y /\ nth_error (w_cls v) (o_cls y) = Some x /\ again P x y a a' /\
      one_new P v v' o' z /\ made P ptrue v (o_cls y) x (if has_params (k_kind x) then o_params y else []) a' z.
Proof. exact call_made. Qed.
Print Assumptions C73_call.

(** So an operation that is called without arguments gives one on the same qubits, with the same control and target,
    provided nobody sets the qubits of operations. *)
Theorem C73_again_partial :
  forall P ptrue peqb (v v' : world P) o a o' y x l,
    reaches P ptrue peqb (fun _ z => ~ sets_qubits P z) v ->
    nth_error (w_op v) o = Some y -> nth_error (w_cls v) (o_cls y) = Some x -> no_args (k_kind x) a ->
    o_qubits y = Some l -> (controlled (k_kind x) -> exists m, k_ncontrol x = Some m /\ 0 < m < List.length l) ->
    call_op ptrue o a v = (v', Ok o') ->
    exists z, one_new P v v' o' z /\ o_cls z = o_cls y /\ o_qubits z = Some l /\ o_control z = o_control y /\ o_target z = o_target y.
Proof. exact called_again. Qed.
Print Assumptions C73_again_partial.

(** Making an operation conditional: the simulator sees the given bits as its condition, whatever it had before, at
    every place of the circuit where the operation is, and everything else as before. *)
Theorem C73_condition :
  forall ptrue peqb (v : world R) c o bs sc y, seen v c = Some sc -> nth_error (w_op v) o = Some y ->
    exists v' sc' x, do_call ptrue peqb (CCond R o (map IBit bs)) v = (v', Ok tt) /\ seen v' c = Some sc' /\
      nth_error (w_circ v) c = Some x /\ sc_qubits Ccring sc' = sc_qubits Ccring sc /\
      Forall2 (fun p s' => s' = if Nat.eqb (fst p) o then mkSop Ccring (so_kind Ccring (snd p)) (so_qubits Ccring (snd p)) bs else snd p)
        (combine (c_ops x) (sc_ops Ccring sc)) (sc_ops Ccring sc').
Proof. exact condition_seen. Qed.
Print Assumptions C73_condition.

(** ** Cases *)
(** A state inside a context. *)
Lemma reaches_inside (okb : world Z -> call Z -> bool) (ok : world Z -> call Z -> Prop) ks pre c body w0 w1 :
  (forall w x, okb w x = true -> ok w x) -> executesb Z ztrue Z.eqb okb (Seq pre (With c body)) (zstart ks) = true ->
  zrun pre (zstart ks) = (w0, Ok tt) -> (let! a := context c in ctx_enter a) w0 = (w1, Ok tt) -> zreaches ok (fst (zrun body w1)).
Proof.
  intros H He E0 E1. exists ks, (Seq pre (With c body)). split; [eapply executesb_sound; eauto|].
  right. right. right. rewrite E0. right. right. rewrite E1. destruct body; cbn; auto.
Qed.
Definition before : prog Z := calls [CNew Z false (Some 3) (Some 1)].
Definition body : prog Z := calls [CConstruct 11 None (AQ (Some [IQubit 2; IQubit 0])); CConstruct 15 (Some [PNum 5%Z]) (ACT (Some [IQubit 1]) (Some [IQubit 2]))].
Definition opened : world Z := ltac:(let w := eval vm_compute in (fst ((let! a := context 0 in ctx_enter a) (fst (zrun before (zstart library_classes))))) in exact w).
Definition built : world Z := ltac:(let w := eval vm_compute in (fst (zrun body opened)) in exact w).
Lemma built_eq : fst (zrun body opened) = built.
Proof. vm_compute. reflexivity. Qed.
Lemma built_reached : zreaches (own_ok Z) built.
Proof.
  rewrite <- built_eq.
  apply (reaches_inside own_okb (own_ok Z) library_classes before 0 body (fst (zrun before (zstart library_classes))) opened own_okb_sound); vm_compute; reflexivity.
Qed.
Lemma built_any : zreaches (fun _ _ => True) built.
Proof. eapply WorldInv7.reaches_impl; [|exact built_reached]. auto. Qed.

(** A controlled gate is recorded and called, once as it is and once with another target. *)
Example C73_construct_case : exists v' y, construct ztrue 15 (Some [PNum 7%Z]) (AQ (Some [IQubit 0; IQubit 1])) built = (v', Ok 2) /\
  nth_error (w_op v') 2 = Some y /\ o_control y = Some [IQubit 0] /\ o_target y = Some [IQubit 1] /\ o_params y = [PNum 7%Z] /\
  accepted Z ztrue built (mkCls "CRX" KParCtrl None (Some 1) (Some 1) (Some 1)) (Some [PNum 7%Z]) (AQ (Some [IQubit 0; IQubit 1])).
Proof.
  eexists _, _. split; [vm_compute; reflexivity|]. split; [vm_compute; reflexivity|]. do 3 (split; [vm_compute; reflexivity|]).
  apply (C73_accepted_partial Z ztrue Z.eqb built 15).
  - eapply WorldInv7.reaches_impl; [|exact built_reached]. unfold own_ok. tauto.
  - split; vm_compute; reflexivity.
  - reflexivity.
  - eexists _, _. vm_compute. reflexivity.
Qed.
(** Refused: a qubit that is not the circuit's. *)
Example C73_refused_case : ~ accepted Z ztrue built (mkCls "CX" KCtrl None (Some 1) (Some 1) None) None (AQ (Some [IQubit 0; IQubit 3])).
Proof.
  rewrite <- (C73_accepted_partial Z ztrue Z.eqb built 11).
  - intros (o & v' & H). vm_compute in H. discriminate.
  - eapply WorldInv7.reaches_impl; [|exact built_reached]. unfold own_ok. tauto.
  - split; vm_compute; reflexivity.
  - reflexivity.
Qed.
Example C73_call_case : exists v' z, call_op ztrue 0 (ACT None (Some [IQubit 1])) built = (v', Ok 2) /\ nth_error (w_op v') 2 = Some z /\
  o_qubits z = Some [IQubit 2; IQubit 1].
Proof. eexists _, _. split; [vm_compute; reflexivity|]. split; vm_compute; reflexivity. Qed.
Example C73_again_case : zreaches (fun _ z => ~ sets_qubits Z z) built /\ exists v' y x, call_op ztrue 1 (ACT None (Some [])) built = (v', Ok 2) /\
  nth_error (w_op built) 1 = Some y /\ nth_error (w_cls built) (o_cls y) = Some x /\ no_args (k_kind x) (ACT None (Some [])) /\
  o_qubits y = Some [IQubit 1; IQubit 2] /\ k_ncontrol x = Some 1.
Proof.
  split; [eapply WorldInv7.reaches_impl; [|exact built_reached]; unfold own_ok; tauto|].
  eexists _, _, _. split; [vm_compute; reflexivity|]. split; [reflexivity|]. split; [reflexivity|].
  split; [split; [now right|split; [now left|now right]]|]. split; reflexivity.
Qed.

(** A gate of the circuit of C67 is made conditional twice. *)
Example C73_condition_case (a : R) : exists v sc y, v = fst (do_call rtrue req (CCond R 2 [IBit 0; IBit 0]) (bell_world a)) /\ seen v 0 = Some sc /\ nth_error (w_op v) 2 = Some y /\ o_cond y = Some [IBit 0; IBit 0].
Proof. eexists _, _, _. split; [reflexivity|]. split; [reflexivity|]. split; reflexivity. Qed.

(** ** What is not so *)
(** A call makes the operation again, but without its condition and, for a measurement, without its bits. *)
Definition conditioned : prog Z := Seq before (Seq (With 0 (calls [CConstruct 22 None (AQ (Some [IQubit 1])); CStore Z 0 [IBit 0]; CCond Z 0 [IBit 0]])) (Do (CUnlock Z 0))).
Theorem C73_whole_refuted :
  exists v v' y z, zreaches (fun _ _ => True) v /\ nth_error (w_op v) 0 = Some y /\ call_op ztrue 0 (AQ None) v = (v', Ok 1) /\
    nth_error (w_op v') 1 = Some z /\ o_cond y = Some [IBit 0] /\ o_bits y = Some [IBit 0] /\ o_cond z = None /\ o_bits z = None.
Proof.
  exists (fst (zrun conditioned (zstart library_classes))). eexists _, _, _. split; [apply any_run|].
  split; [vm_compute; reflexivity|]. split; [vm_compute; reflexivity|]. split; [vm_compute; reflexivity|]. repeat split.
Qed.
Print Assumptions C73_whole_refuted.

(** Setting the qubits of a controlled operation (base.py:302-309) leaves control and target as they were, so calling
    it goes back to the old qubits. *)
Definition moved : prog Z := Seq before (calls [CConstruct 11 None (AQ (Some [IQubit 0; IQubit 1])); CSetQubits Z 0 [IQubit 2; IQubit 1]]).
Theorem C73_set_qubits_refuted :
  exists v v' y z, zreaches (fun _ _ => True) v /\ nth_error (w_op v) 0 = Some y /\ call_op ztrue 0 (ACT None None) v = (v', Ok 1) /\
    nth_error (w_op v') 1 = Some z /\ o_qubits y = Some [IQubit 2; IQubit 1] /\ o_qubits z = Some [IQubit 0; IQubit 1].
Proof.
  exists (fst (zrun moved (zstart library_classes))). eexists _, _, _. split; [apply any_run|].
  split; [vm_compute; reflexivity|]. split; [vm_compute; reflexivity|]. split; [vm_compute; reflexivity|]. repeat split.
Qed.
Print Assumptions C73_set_qubits_refuted.

(** A controlled class that does not say its number of controls takes all qubits for control and target
    (base.py:496-503), and calling such an operation puts it on every qubit twice. *)
Theorem C73_undivided_refuted :
  exists v v' y z, zreaches (own_ok Z) v /\ nth_error (w_op v) 0 = Some y /\ call_op ztrue 0 (ACT None None) v = (v', Ok 1) /\
    nth_error (w_op v') 1 = Some z /\ o_qubits y = Some [IQubit 0; IQubit 1] /\ o_qubits z = Some [IQubit 0; IQubit 1; IQubit 0; IQubit 1].
Proof.
  exists (fst (zrun (Seq before (Do (CConstruct 0 None (AQ (Some [IQubit 0; IQubit 1]))))) (zstart [mkCls "U" KCtrl None None None None]))).
  eexists _, _, _. split; [apply (reaches_run Z ztrue Z.eqb own_okb (own_ok Z) _ _ own_okb_sound); vm_compute; reflexivity|].
  split; [vm_compute; reflexivity|]. split; [vm_compute; reflexivity|]. split; [vm_compute; reflexivity|]. repeat split.
Qed.
Print Assumptions C73_undivided_refuted.

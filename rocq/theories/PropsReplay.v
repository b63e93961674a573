(** Properties C14, C18 and C19: operations act on the qubits of their circuit, and calling a circuit. *)
From Coq Require Import List ZArith Ascii String Bool Arith Lia.
From Verif Require Import Py RegisterModel WorldModel WorldSpec WorldSpec2 WorldSpec3 WorldSpec4 WorldCheck PropsContext WorldVars ReplayProofs.
Import ListNotations.
Local Open Scope string_scope.
Local Open Scope list_scope.
Local Open Scope nat_scope.

(** ** C14: a circuit only holds operations on its own qubits *)

(** The recorded operation, the appended one and the one recorded by calling a circuit all act on qubits of
    the circuit's registers, in every state that a program passes through. *)
Theorem C14_own_partial :
  forall P ptrue peqb (v : world P) c x o y qs q,
    reaches P ptrue peqb (own_ok P) v -> small P v ->
    nth_error (w_circ v) c = Some x -> In o (c_ops x) -> nth_error (w_op v) o = Some y ->
    o_qubits y = Some qs -> In q qs -> in_qreg x q.
Proof. exact reached_own. Qed.
Print Assumptions C14_own_partial.

Definition own_okb (w : world Z) (x : call Z) : bool :=
  match x with CQRegAdd _ _ _ _ | CCRegAdd _ _ _ _ | CReset _ _ false | CSetQubits _ _ _ => false | _ => true end.
Lemma own_okb_sound w x : own_okb w x = true -> own_ok Z w x.
Proof. unfold own_ok. destruct x; cbn; try discriminate; try (destruct keep; try discriminate); auto. Qed.

Definition own_okb2 (w : world Z) (x : call Z) : bool :=
  match x with CQRegAdd _ _ _ _ | CCRegAdd _ _ _ _ | CReset _ _ false => false | _ => true end.
Definition own_okb3 (w : world Z) (x : call Z) : bool :=
  match x with CQRegAdd _ _ _ _ | CCRegAdd _ _ _ _ | CSetQubits _ _ _ => false | _ => true end.

(** A two-qubit circuit is built and called from a three-qubit one on qubits 4 and 2; an operation is also
    appended there, and one on a foreign qubit is refused. *)
Definition two_circuits : prog Z :=
  Seq (calls [CNew _ false (Some 2) None; CNew _ false (Some 3) None])
  (Seq (With 0 (calls [H 0; CX 0 1]))
  (Seq (With 1 (Seq (calls [CCall _ 0 [IQubit 4; IQubit 2] BNone; H 3]) (Try (Do (H 0)))))
       (calls [CUnlock _ 1; H 3; CAppend _ 1 6]))).
Definition after_two : world Z := fst (zrun two_circuits (zstart gates)).
Example C14_case : zreaches (own_ok Z) after_two /\ small Z after_two /\ snd (zrun two_circuits (zstart gates)) = Ok tt /\
  exists x, nth_error (w_circ after_two) 1 = Some x /\ c_ops x = [2; 3; 4; 6] /\
    map (fun o => option_map (fun y => o_qubits y) (nth_error (w_op after_two) o)) (c_ops x) =
      [Some (Some [IQubit 4]); Some (Some [IQubit 4; IQubit 2]); Some (Some [IQubit 3]); Some (Some [IQubit 3])].
Proof.
  split; [apply (reaches_run Z ztrue Z.eqb own_okb (own_ok Z) _ _ own_okb_sound); vm_compute; reflexivity|].
  split; [split; vm_compute; reflexivity|]. split; [vm_compute; reflexivity|].
  eexists. split; [vm_compute; reflexivity|]. split; vm_compute; reflexivity.
Qed.

(** Two ways around it.  The qubits of a recorded operation can be set to any others (base.py:302-309): *)
Definition put_elsewhere : prog Z :=
  Seq (calls [CNew _ false (Some 1) None; CNew _ false (Some 1) None]) (Seq (With 0 (calls [H 0])) (calls [CSetQubits _ 0 [IQubit 1]])).
Theorem C14_set_refuted :
  exists v x y, zreaches (fun w c => own_methods Z w c /\ keeps_registers Z c) v /\ small Z v /\
    nth_error (w_circ v) 0 = Some x /\ c_ops x = [0] /\ nth_error (w_op v) 0 = Some y /\ o_qubits y = Some [IQubit 1] /\
    ~ in_qreg x (IQubit 1).
Proof.
  exists (fst (zrun put_elsewhere (zstart gates))). eexists _, _.
  split; [apply (reaches_run Z ztrue Z.eqb own_okb2); [|vm_compute; reflexivity]; intros w c Hc; destruct c; cbn in *; try discriminate; try (destruct keep; try discriminate); auto|].
  split; [split; vm_compute; reflexivity|]. split; [vm_compute; reflexivity|]. split; [reflexivity|]. split; [vm_compute; reflexivity|].
  split; [reflexivity|]. intros (l & r & H & Hq). vm_compute in H. destruct H as [H|[]]. injection H as <- <-. vm_compute in Hq.
  destruct Hq as [Hq|[]]. discriminate.
Qed.
Print Assumptions C14_set_refuted.

(** and [reset(keep_registers=False)] drops the registers but not the joint view of the qubits
    (circuit.py:342-360, 225-232), so that operations on the dropped qubits are still accepted. *)
Definition drop_registers : prog Z :=
  Seq (calls [CNew _ false (Some 1) None; CQubits _ 0; CReset _ 0 false]) (With 0 (calls [H 0])).
Theorem C14_reset_refuted :
  exists v x y, zreaches (fun w c => own_methods Z w c /\ ~ sets_qubits Z c) v /\ small Z v /\
    nth_error (w_circ v) 0 = Some x /\ c_ops x = [0] /\ nth_error (w_op v) 0 = Some y /\ o_qubits y = Some [IQubit 0] /\
    ~ in_qreg x (IQubit 0).
Proof.
  exists (fst (zrun drop_registers (zstart gates))). eexists _, _.
  split; [apply (reaches_run Z ztrue Z.eqb own_okb3); [|vm_compute; reflexivity]; intros w c Hc; destruct c; cbn in *; try discriminate; auto|].
  split; [split; vm_compute; reflexivity|]. split; [vm_compute; reflexivity|]. split; [reflexivity|]. split; [vm_compute; reflexivity|].
  split; [reflexivity|]. intros (l & r & H & _). vm_compute in H. exact H.
Qed.
Print Assumptions C14_reset_refuted.

(** ** C18: calling a circuit *)

(** A successful call of circuit [t] inside the context of another circuit adds, to that circuit only and at
    its end, one operation per operation of [t], in the same order, each of the same class with the i-th
    qubit (bit) of [t] replaced by the i-th given one; [t] itself stays as it is.  Nothing is added while
    the context is frozen. *)
Theorem C18_replay_partial :
  forall P ptrue peqb (v : world P) t qs ba x,
    reaches P ptrue peqb (own_ok P) v -> small P v -> nth_error (w_circ v) t = Some x ->
    snd (do_call ptrue peqb (CCall P t qs ba) v) = Ok tt ->
    exists d zs kbs, let v' := fst (do_call ptrue peqb (CCall P t qs ba) v) in
      current P v d /\ d <> t /\ List.length qs = List.length (circuit_qubits x) /\ bits_given P v t ba kbs /\
      w_op v' = w_op v ++ zs /\ only_adds P v v' (seq (List.length (w_op v)) (List.length zs)) /\ w_var v' = w_var v /\
      Forall2 (fun o z => exists y k, nth_error (w_op v) o = Some y /\ nth_error (w_cls v) (o_cls y) = Some k /\
        repeats P (stands_for P ptrue v) v (circuit_qubits x) qs kbs (k_kind k) y z) (c_ops x) zs.
Proof. exact reached_replay. Qed.
Print Assumptions C18_replay_partial.

(** The bits that are replaced are those of the registers of [t]. *)
Theorem C18_bits_partial :
  forall P ptrue peqb (v : world P) t ba x kb bs,
    reaches P ptrue peqb (fun w y => classical_ok P ptrue peqb w y /\ keeps_registers P y) v -> small P v ->
    nth_error (w_circ v) t = Some x -> bits_given P v t ba (Some (kb, bs)) ->
    kb = circuit_bits x /\ List.length bs = List.length (circuit_bits x).
Proof. exact reached_bits. Qed.
Print Assumptions C18_bits_partial.

(** The calls that are refused outright: outside every context, in the circuit's own context, and with the
    wrong number of qubits. *)
Theorem C18_outside :
  forall P ptrue peqb (v : world P) t qs ba x,
    nth_error (w_circ v) t = Some x -> c_par x = false -> w_active v = None ->
    do_call ptrue peqb (CCall P t qs ba) v = (v, Err CircuitError).
Proof. exact reached_outside. Qed.
Print Assumptions C18_outside.
Theorem C18_itself :
  forall P ptrue peqb (v : world P) t qs ba x,
    nth_error (w_circ v) t = Some x -> c_par x = false -> current P v t ->
    do_call ptrue peqb (CCall P t qs ba) v = (v, Err TypeError).
Proof. exact reached_itself. Qed.
Print Assumptions C18_itself.
Theorem C18_wrong_number :
  forall P ptrue peqb (v : world P) t d qs ba x,
    reaches P ptrue peqb (own_ok P) v -> small P v -> nth_error (w_circ v) t = Some x -> c_par x = false ->
    current P v d -> d <> t -> List.length qs <> List.length (circuit_qubits x) ->
    let r := do_call ptrue peqb (CCall P t qs ba) v in
    snd r = Err ValueError /\ only_adds P v (fst r) [] /\ w_op (fst r) = w_op v.
Proof. exact reached_qubits. Qed.
Print Assumptions C18_wrong_number.

(** The state inside the context of [c] after the program [p] and then [body]. *)
Definition inside (p : prog Z) (c : nat) (body : prog Z) : world Z :=
  fst (zrun body (fst ((let! a := context c in ctx_enter a) (fst (zrun p (zstart gates)))))).
Lemma reaches_inside okb (ok : world Z -> call Z -> Prop) p c body : (forall w x, okb w x = true -> ok w x) ->
  executesb Z ztrue Z.eqb okb (Seq p (With c body)) (zstart gates) = true ->
  snd (zrun p (zstart gates)) = Ok tt -> snd ((let! a := context c in ctx_enter a) (fst (zrun p (zstart gates)))) = Ok tt ->
  zreaches ok (inside p c body).
Proof.
  intros Hs He H1 H2. exists gates, (Seq p (With c body)). split; [eapply executesb_sound; eauto|].
  unfold inside. cbn [visits]. right. right. right. destruct (zrun p (zstart gates)) as [w1 [[]|]]; [|discriminate H1].
  right. right. cbn [fst] in *. destruct ((let! a := context c in ctx_enter a) w1) as [w2 [[]|]]; [|discriminate H2].
  destruct body; cbn; auto.
Qed.

(** A circuit with every kind of operation, called on qubits 4 and 2 and bits 3 and 2. *)
Definition all_kinds : prog Z :=
  Seq (calls [CNew _ false (Some 2) (Some 2); CNew _ false (Some 3) (Some 2)])
      (With 0 (calls [H 0; CX 0 1; CConstruct 2 (Some [PNum 7%Z]) (AQ (Some [IQubit 1])); CConstruct 3 None (AQ (Some [IQubit 1; IQubit 0]));
                      CStore _ 3 [IBit 0; IBit 1]])).
Definition calling : world Z := inside all_kinds 1 (calls [H 2]).
Definition the_call : call Z := CCall _ 0 [IQubit 4; IQubit 2] (BList [IBit 3; IBit 2]).
Definition called_world : world Z := fst (do_call ztrue Z.eqb the_call calling).
Example C18_case : zreaches (own_ok Z) calling /\ small Z calling /\ snd (do_call ztrue Z.eqb the_call calling) = Ok tt /\
  current Z calling 1 /\
  (exists x, nth_error (w_circ calling) 0 = Some x /\ c_ops x = [0; 1; 2; 3] /\ circuit_qubits x = [IQubit 0; IQubit 1]) /\
  option_map c_ops (nth_error (w_circ called_world) 1) = Some [4; 5; 6; 7; 8] /\
  map (fun y => (o_cls y, o_qubits y, o_params y, o_bits y)) (skipn 5 (w_op called_world)) =
    [(0, Some [IQubit 4], [], None); (1, Some [IQubit 4; IQubit 2], [], None); (2, Some [IQubit 2], [PNum 7%Z], None);
     (3, Some [IQubit 2; IQubit 4], [], Some [IBit 3; IBit 2])].
Proof.
  split; [apply (reaches_inside own_okb _ _ _ _ own_okb_sound); vm_compute; reflexivity|].
  split; [split; vm_compute; reflexivity|]. split; [vm_compute; reflexivity|]. split; [eexists _, _; split; vm_compute; reflexivity|].
  split; [eexists; split; [vm_compute; reflexivity|split; vm_compute; reflexivity]|]. split; vm_compute; reflexivity.
Qed.
Definition classical_keepb (w : world Z) (x : call Z) : bool :=
  classicalb Z ztrue Z.eqb w x && match x with CReset _ _ false => false | _ => true end.
Lemma classical_keepb_sound w x : classical_keepb w x = true -> classical_ok Z ztrue Z.eqb w x /\ keeps_registers Z x.
Proof.
  unfold classical_keepb. intros H. apply andb_true_iff in H. destruct H as [H1 H2]. split; [now apply classicalb_sound|].
  destruct x; cbn in *; auto. now destruct keep.
Qed.
Example C18_bits_case : zreaches (fun w y => classical_ok Z ztrue Z.eqb w y /\ keeps_registers Z y) calling /\ small Z calling /\
  (exists x, nth_error (w_circ calling) 0 = Some x /\ circuit_bits x = [IBit 0; IBit 1]) /\
  bits_given Z calling 0 (BList [IBit 3; IBit 2]) (Some ([IBit 0; IBit 1], [IBit 3; IBit 2])).
Proof.
  split; [apply (reaches_inside classical_keepb _ _ _ _ classical_keepb_sound); vm_compute; reflexivity|].
  split; [split; vm_compute; reflexivity|]. split; [eexists; split; vm_compute; reflexivity|].
  unfold bits_given. cbn [bargs_list]. eexists _, _. split; [vm_compute; reflexivity|]. split; [vm_compute; reflexivity|]. split; reflexivity.
Qed.
(** Outside every context, in its own context, on three qubits: *)
Example C18_refused_cases :
  (let w := fst (zrun all_kinds (zstart gates)) in w_active w = None /\ snd (do_call ztrue Z.eqb the_call w) = Err CircuitError) /\
  (let w := inside (Seq all_kinds (Do (CUnlock _ 0))) 0 Skip in current Z w 0 /\ snd (do_call ztrue Z.eqb the_call w) = Err TypeError) /\
  snd (do_call ztrue Z.eqb (CCall _ 0 [IQubit 2; IQubit 3; IQubit 4] BNone) calling) = Err ValueError.
Proof.
  split; [split; vm_compute; reflexivity|]. split; [split; [eexists _, _; split; vm_compute; reflexivity|vm_compute; reflexivity]|].
  vm_compute; reflexivity.
Qed.

(** Not everything is repeated.  The condition of an operation is dropped (circuit.py:127-155): *)
Definition with_condition : prog Z :=
  Seq (calls [CNew _ false (Some 1) (Some 1); CNew _ false (Some 1) (Some 1)]) (With 0 (calls [H 0; CCond _ 0 [IBit 0]])).
Theorem C18_condition_refuted :
  exists v y z, zreaches (own_ok Z) v /\ small Z v /\ current Z v 1 /\
    snd (do_call ztrue Z.eqb (CCall _ 0 [IQubit 1] (BList [IBit 1])) v) = Ok tt /\
    (let v' := fst (do_call ztrue Z.eqb (CCall _ 0 [IQubit 1] (BList [IBit 1])) v) in
     option_map c_ops (nth_error (w_circ v) 0) = Some [0] /\ option_map c_ops (nth_error (w_circ v') 1) = Some [1] /\
     nth_error (w_op v) 0 = Some y /\ nth_error (w_op v') 1 = Some z) /\
    o_cond y = Some [IBit 0] /\ o_cond z = None.
Proof.
  exists (inside with_condition 1 Skip). eexists _, _.
  split; [apply (reaches_inside own_okb _ _ _ _ own_okb_sound); vm_compute; reflexivity|].
  split; [split; vm_compute; reflexivity|]. split; [eexists _, _; split; vm_compute; reflexivity|]. split; [vm_compute; reflexivity|].
  split; [split; [|split; [|split]]; vm_compute; reflexivity|]. split; reflexivity.
Qed.
Print Assumptions C18_condition_refuted.

(** a measurement without bits cannot be repeated when bits are given: the call raises ValueError, after
    having added the measurement (circuit.py:134-141, base.py:653-760); *)
Definition measures_only : prog Z :=
  Seq (calls [CNew _ false (Some 1) (Some 1); CNew _ false (Some 1) (Some 1)]) (With 0 (calls [CConstruct 3 None (AQ (Some [IQubit 0]))])).
Theorem C18_measurement_refuted :
  exists v, zreaches (own_ok Z) v /\ small Z v /\ current Z v 1 /\
    option_map circuit_qubits (nth_error (w_circ v) 0) = Some [IQubit 0] /\ option_map circuit_bits (nth_error (w_circ v) 0) = Some [IBit 0] /\
    snd (do_call ztrue Z.eqb (CCall _ 0 [IQubit 1] (BList [IBit 1])) v) = Err ValueError /\
    option_map c_ops (nth_error (w_circ (fst (do_call ztrue Z.eqb (CCall _ 0 [IQubit 1] (BList [IBit 1])) v))) 1) = Some [1].
Proof.
  exists (inside measures_only 1 Skip).
  split; [apply (reaches_inside own_okb _ _ _ _ own_okb_sound); vm_compute; reflexivity|].
  split; [split; vm_compute; reflexivity|]. split; [eexists _, _; split; vm_compute; reflexivity|]. repeat (split; [vm_compute; reflexivity|]). vm_compute. reflexivity.
Qed.
Print Assumptions C18_measurement_refuted.

(** a single bit whose value is 0 counts as no bits at all (circuit.py:117-125), so that the
    repeated measurement has none; *)
Definition measures_stored : prog Z :=
  Seq (calls [CNew _ false (Some 1) (Some 1); CNew _ false (Some 1) (Some 1)]) (Seq (With 0 (calls [CConstruct 3 None (AQ (Some [IQubit 0])); CStore _ 0 [IBit 0]])) (calls [CBitSet _ 1 false false])).
Theorem C18_single_bit_refuted :
  exists v z, zreaches (own_ok Z) v /\ small Z v /\ current Z v 1 /\
    nth_error (w_bit v) 1 = Some (LStr "0", Some false) /\ option_map (fun y => o_bits y) (nth_error (w_op v) 0) = Some (Some [IBit 0]) /\
    snd (do_call ztrue Z.eqb (CCall _ 0 [IQubit 1] (BOne 1)) v) = Ok tt /\
    nth_error (w_op (fst (do_call ztrue Z.eqb (CCall _ 0 [IQubit 1] (BOne 1)) v))) 1 = Some z /\ o_qubits z = Some [IQubit 1] /\ o_bits z = None.
Proof.
  exists (inside measures_stored 1 Skip). eexists.
  split; [apply (reaches_inside own_okb _ _ _ _ own_okb_sound); vm_compute; reflexivity|].
  split; [split; vm_compute; reflexivity|]. split; [eexists _, _; split; vm_compute; reflexivity|].
  split; [vm_compute; reflexivity|]. split; [vm_compute; reflexivity|]. split; [vm_compute; reflexivity|]. split; [vm_compute; reflexivity|]. split; reflexivity.
Qed.
Print Assumptions C18_single_bit_refuted.

(** and an operation with two controls, a class that a user can define, is given too many arguments
    (circuit.py:151-152). *)
Definition toffoli : list cls := [mkCls "CCX" KCtrl (Some 3) (Some 2) (Some 1) None].
Definition controlled_twice : prog Z :=
  Seq (calls [CNew _ false (Some 3) None; CNew _ false (Some 3) None])
      (With 0 (calls [CConstruct 0 None (ACT (Some [IQubit 0; IQubit 1]) (Some [IQubit 2]))])).
Theorem C18_controls_refuted :
  exists v, zreaches (own_ok Z) v /\ small Z v /\ option_map c_ops (nth_error (w_circ v) 0) = Some [0] /\
    option_map circuit_qubits (nth_error (w_circ v) 0) = Some [IQubit 0; IQubit 1; IQubit 2] /\
    snd (zrun (With 1 Skip) v) = Ok tt /\
    snd (zrun (With 1 (Do (CCall _ 0 [IQubit 3; IQubit 4; IQubit 5] BNone))) v) = Err TypeError.
Proof.
  exists (fst (zrun controlled_twice (zstart toffoli))).
  split; [apply (reaches_run Z ztrue Z.eqb own_okb (own_ok Z) _ _ own_okb_sound); vm_compute; reflexivity|].
  split; [split; vm_compute; reflexivity|]. repeat (split; [vm_compute; reflexivity|]). vm_compute. reflexivity.
Qed.
Print Assumptions C18_controls_refuted.

(** ** C19: calling a parametric circuit *)

(** A successful call repeats the operations as for C18; in a circuit without variables of its own the
    i-th variable of the called circuit is replaced by the i-th parameter in every [ParametricOperation]. *)
Theorem C19_substitutes_partial :
  forall P ptrue peqb (v : world P) t ps qs ba x,
    reaches P ptrue peqb (own_ok P) v -> small P v -> nth_error (w_circ v) t = Some x ->
    snd (do_call ptrue peqb (CCallPar t ps qs ba) v) = Ok tt ->
    exists d zs kbs, let v' := fst (do_call ptrue peqb (CCallPar t ps qs ba) v) in
      current P v d /\ d <> t /\ List.length (c_vars x) <= List.length ps /\
      List.length qs = List.length (circuit_qubits x) /\ bits_given P v t ba kbs /\
      w_op v' = w_op v ++ zs /\ only_adds P v v' (seq (List.length (w_op v)) (List.length zs)) /\
      assigned P (c_vars x) ps (w_var v) (w_var v') /\
      Forall2 (fun o z => exists y k, nth_error (w_op v) o = Some y /\ nth_error (w_cls v) (o_cls y) = Some k /\
        repeats P (given_value P ptrue v (c_vars x) ps) v (circuit_qubits x) qs kbs (k_kind k) y z) (c_ops x) zs.
Proof. exact reached_parametric. Qed.
Print Assumptions C19_substitutes_partial.

(** Whatever a program does, the [ParametricOperation]s of a circuit without parameters hold numbers only. *)
Theorem C19_numbers_partial :
  forall P ptrue peqb ok (v : world P) c x o y k,
    reaches P ptrue peqb ok v -> nth_error (w_circ v) c = Some x -> c_par x = false -> In o (c_ops x) ->
    nth_error (w_op v) o = Some y -> nth_error (w_cls v) (o_cls y) = Some k -> k_kind k = KParam ->
    Forall (number P) (o_params y).
Proof. exact reached_numbers. Qed.
Print Assumptions C19_numbers_partial.

(** Each variable belongs to one circuit, once; so the parameters of a call do not overwrite each other. *)
Theorem C19_own_variables :
  forall P ptrue peqb ok (v : world P), reaches P ptrue peqb ok v ->
    (forall c x, nth_error (w_circ v) c = Some x -> NoDup (c_vars x)) /\
    (forall c d x y n, nth_error (w_circ v) c = Some x -> nth_error (w_circ v) d = Some y -> In n (c_vars x) -> In n (c_vars y) -> c = d).
Proof. exact VD_reach. Qed.
Print Assumptions C19_own_variables.

(** Fewer parameters than variables: IndexError, nothing is added. *)
Theorem C19_too_few :
  forall P ptrue peqb ok (v : world P) t ps qs ba x,
    reaches P ptrue peqb ok v -> nth_error (w_circ v) t = Some x -> c_par x = true -> w_active v <> None ->
    List.length ps < List.length (c_vars x) ->
    snd (do_call ptrue peqb (CCallPar t ps qs ba) v) = Err IndexError /\
    exists l, fst (do_call ptrue peqb (CCallPar t ps qs ba) v) = set_var v l.
Proof. exact reached_few. Qed.
Print Assumptions C19_too_few.

(** RX(p[1]), RX(3), RX(p[0]) and CX, called with the parameters 5 and 9. *)
Definition with_variables : prog Z :=
  Seq (calls [CNew _ true (Some 2) None; CNew _ false (Some 2) None])
      (With 0 (calls [CGetParam _ 0 1; CConstruct 2 (Some [PVar 1]) (AQ (Some [IQubit 0])); CConstruct 2 (Some [PNum 3%Z]) (AQ (Some [IQubit 1]));
                      CConstruct 2 (Some [PVar 0]) (AQ (Some [IQubit 1])); CX 0 1])).
Definition before_call : world Z := inside with_variables 1 Skip.
Definition par_call (ps : list Z) : call Z := CCallPar 0 ps [IQubit 3; IQubit 2] BNone.
Definition after_call : world Z := fst (do_call ztrue Z.eqb (par_call [5%Z; 9%Z]) before_call).
Example C19_case : zreaches (own_ok Z) before_call /\ small Z before_call /\ snd (do_call ztrue Z.eqb (par_call [5%Z; 9%Z]) before_call) = Ok tt /\
  (exists x, nth_error (w_circ before_call) 0 = Some x /\ c_par x = true /\ c_vars x = [0; 1] /\ c_ops x = [0; 1; 2; 3]) /\
  (exists x, nth_error (w_circ after_call) 1 = Some x /\ c_par x = false /\ c_ops x = [4; 5; 6; 7]) /\
  map (fun y => (o_cls y, o_qubits y, o_params y)) (skipn 4 (w_op after_call)) =
    [(2, Some [IQubit 3], [PNum 9%Z]); (2, Some [IQubit 2], [PNum 3%Z]); (2, Some [IQubit 2], [PNum 5%Z]); (1, Some [IQubit 3; IQubit 2], [])] /\
  snd (do_call ztrue Z.eqb (par_call [5%Z]) before_call) = Err IndexError.
Proof.
  split; [apply (reaches_inside own_okb _ _ _ _ own_okb_sound); vm_compute; reflexivity|].
  split; [split; vm_compute; reflexivity|]. split; [vm_compute; reflexivity|].
  split; [eexists; split; [vm_compute; reflexivity|split; [|split]; vm_compute; reflexivity]|].
  split; [eexists; split; [vm_compute; reflexivity|split; vm_compute; reflexivity]|]. split; vm_compute; reflexivity.
Qed.

(** The parameter 0 is refused (base.py:400-407): *)
Theorem C19_zero_refuted :
  exists v, zreaches (own_ok Z) v /\ small Z v /\ v = inside (template 1) 1 Skip /\
    snd (do_call ztrue Z.eqb (CCallPar 0 [5%Z] [IQubit 1] BNone) v) = Ok tt /\
    snd (do_call ztrue Z.eqb (CCallPar 0 [0%Z] [IQubit 1] BNone) v) = Err ValueError.
Proof.
  exists (inside (template 1) 1 Skip).
  split; [apply (reaches_inside own_okb _ _ _ _ own_okb_sound); vm_compute; reflexivity|].
  split; [split; vm_compute; reflexivity|]. split; [reflexivity|]. split; vm_compute; reflexivity.
Qed.
Print Assumptions C19_zero_refuted.

(** a [ParametricControlledOperation] keeps its variables, in a circuit without parameters (base.py:599-650): *)
Definition controlled_template : prog Z :=
  Seq (calls [CNew _ true (Some 2) None; CNew _ false (Some 2) None])
      (With 0 (calls [CGetParam _ 0 0; CConstruct 5 (Some [PVar 0]) (ACT (Some [IQubit 0]) (Some [IQubit 1]))])).
Theorem C19_controlled_refuted :
  exists v x y, zreaches (own_ok Z) v /\ small Z v /\
    v = fst (zrun (Seq controlled_template (With 1 (Do (CCallPar 0 [5%Z] [IQubit 2; IQubit 3] BNone)))) (zstart gates)) /\
    nth_error (w_circ v) 1 = Some x /\ c_par x = false /\ c_ops x = [1] /\ nth_error (w_op v) 1 = Some y /\ o_params y = [PVar 0] /\
    nth_error (w_var v) 0 = Some ("0", None).
Proof.
  eexists _, _, _. split; [apply (reaches_run Z ztrue Z.eqb own_okb (own_ok Z) gates (Seq controlled_template (With 1 (Do (CCallPar 0 [5%Z] [IQubit 2; IQubit 3] BNone)))) own_okb_sound); vm_compute; reflexivity|].
  split; [split; vm_compute; reflexivity|]. split; [reflexivity|]. split; [vm_compute; reflexivity|]. split; [reflexivity|]. split; [reflexivity|].
  split; [vm_compute; reflexivity|]. split; [reflexivity|vm_compute; reflexivity].
Qed.
Print Assumptions C19_controlled_refuted.

(** and in a parametric circuit with variables the called circuit's variables stay, without the values given
    (circuit.py:191-194, 752-755). *)
Definition nested_template : prog Z :=
  Seq (calls [CNew _ true (Some 1) None; CNew _ true (Some 1) None])
  (Seq (With 0 (calls [CGetParam _ 0 0; CConstruct 2 (Some [PVar 0]) (AQ (Some [IQubit 0]))]))
       (With 1 (calls [CGetParam _ 1 0; CCallPar 0 [5%Z] [IQubit 1] BNone]))).
Theorem C19_nested_refuted :
  exists v x y, zreaches (own_ok Z) v /\ small Z v /\ v = fst (zrun nested_template (zstart gates)) /\ snd (zrun nested_template (zstart gates)) = Ok tt /\
    nth_error (w_circ v) 1 = Some x /\ c_vars x = [1] /\ c_ops x = [1] /\ nth_error (w_op v) 1 = Some y /\ o_params y = [PVar 0] /\
    nth_error (w_var v) 0 = Some ("0", None).
Proof.
  eexists _, _, _. split; [apply (reaches_run Z ztrue Z.eqb own_okb (own_ok Z) gates nested_template own_okb_sound); vm_compute; reflexivity|].
  split; [split; vm_compute; reflexivity|]. split; [reflexivity|]. split; [vm_compute; reflexivity|]. split; [vm_compute; reflexivity|]. split; [reflexivity|].
  split; [reflexivity|]. split; [vm_compute; reflexivity|]. split; [reflexivity|vm_compute; reflexivity].
Qed.
Print Assumptions C19_nested_refuted.

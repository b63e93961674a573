(** Property C17: which operations are recorded, where and in which order. *)
From Coq Require Import List ZArith Ascii String Bool Arith Lia Sorted.
From Verif Require Import Py RegisterModel WorldModel WorldSpec WorldSpec2 WorldSpec3 WorldCheck WorldCtx2 PropsContext BuildProofs.
Import ListNotations.
Local Open Scope string_scope.
Local Open Scope list_scope.
Local Open Scope nat_scope.

(** ** C17: recorded once and in order *)

(** Whatever a program does (contexts, freezes, exceptions), the operations of a circuit after it are those
    before it, followed by the objects built while its context was active and not frozen, in the order in
    which they were built; each is new. *)
Theorem C17_order :
  forall P ptrue peqb d p (v : world P) x,
    reaches P ptrue peqb (any P) v -> nth_error (w_circ v) d = Some x ->
    executes P ptrue peqb (fun _ => no_edit P d) p v ->
    exists x' l, nth_error (w_circ (fst (run ptrue peqb p v))) d = Some x' /\ c_ops x' = c_ops x ++ l /\
      logs P ptrue peqb d p v l /\ increasing l (List.length (w_op v)) (List.length (w_op (fst (run ptrue peqb p v)))).
Proof. exact reached_order. Qed.
Print Assumptions C17_order.

(** The body of [with circuit.context:] without freezes: everything that it builds. *)
Theorem C17_context :
  forall P ptrue peqb (v w1 : world P) c body x,
    reaches P ptrue peqb (any P) v -> (let! a := context c in ctx_enter a) v = (w1, Ok tt) -> no_freeze P body ->
    executes P ptrue peqb (fun _ => no_edit P c) body w1 -> nth_error (w_circ v) c = Some x ->
    exists x' l, nth_error (w_circ (fst (run ptrue peqb (With c body) v))) c = Some x' /\ c_ops x' = c_ops x ++ l /\
      collects P ptrue peqb (fun _ => True) body w1 l.
Proof. exact reached_with. Qed.
Print Assumptions C17_context.

(** Inside a freeze nothing is recorded in any circuit, unless another freeze is nested in it. *)
Theorem C17_frozen_partial :
  forall P ptrue peqb d body (v : world P) x a,
    reaches P ptrue peqb (any P) v -> w_active v = Some a -> no_freeze P body ->
    executes P ptrue peqb (fun _ => no_edit P d) (Frozen body) v -> nth_error (w_circ v) d = Some x ->
    exists x', nth_error (w_circ (fst (run ptrue peqb (Frozen body) v))) d = Some x' /\ c_ops x' = c_ops x.
Proof. exact reached_frozen. Qed.
Print Assumptions C17_frozen_partial.

(** Outside contexts nothing is recorded. *)
Theorem C17_outside :
  forall P ptrue peqb d p (v : world P) x,
    reaches P ptrue peqb (any P) v -> w_active v = None -> no_with P p -> nth_error (w_circ v) d = Some x ->
    executes P ptrue peqb (fun _ => no_edit P d) p v ->
    exists x', nth_error (w_circ (fst (run ptrue peqb p v))) d = Some x' /\ c_ops x' = c_ops x.
Proof. exact reached_outside. Qed.
Print Assumptions C17_outside.

(** As long as nobody calls append or extend, the operations of every circuit are in construction order and
    without repetition, and no operation is in two circuits. *)
Theorem C17_once :
  forall P ptrue peqb (v : world P),
    reaches P ptrue peqb (fun _ => no_append P) v ->
    (forall c x, nth_error (w_circ v) c = Some x -> StronglySorted lt (c_ops x)) /\
    (forall c c' x x' o, nth_error (w_circ v) c = Some x -> nth_error (w_circ v) c' = Some x' ->
       In o (c_ops x) -> In o (c_ops x') -> c = c').
Proof. exact reached_once. Qed.
Print Assumptions C17_once.

(** Two circuits; a body that builds, freezes, builds a gate on a qubit of another circuit and raises. *)
Definition setup : prog Z :=
  Seq (calls [CNew _ false (Some 2) None; CNew _ false (Some 1) None]) (Seq (With 0 (calls [H 1])) (calls [H 0; CUnlock _ 0])).
Definition before : world Z := fst (zrun setup (zstart gates)).
Definition busy : prog Z :=
  Try (With 0 (Seq (calls [H 0]) (Seq (Frozen (calls [H 1; CX 0 1])) (Seq (calls [CX 0 1]) (Seq (Try (Do (CX 0 2))) (Seq (calls [H 1]) (Seq (Raise KeyError) (calls [H 0])))))))).
Definition quietb (x : call Z) : bool := match x with CAppend _ _ _ | CExtend _ _ _ | CRemove _ _ _ | CReset _ _ _ => false | _ => true end.
Lemma quietb_sound d p w : executesb Z ztrue Z.eqb (fun _ => quietb) p w = true -> executes Z ztrue Z.eqb (fun _ => no_edit Z d) p w.
Proof. apply executesb_sound. intros v x Hx. destruct x; try discriminate Hx; exact I. Qed.
Example C17_case : exists x, zreaches (any Z) before /\ nth_error (w_circ before) 0 = Some x /\ c_ops x = [0] /\ w_active before = None /\
  List.length (w_op before) = 2 /\ executes Z ztrue Z.eqb (fun _ => no_edit Z 0) busy before /\
  snd (zrun busy before) = Ok tt /\ exists x', nth_error (w_circ (fst (zrun busy before))) 0 = Some x' /\ c_ops x' = [0; 2; 5; 7].
Proof.
  eexists. split; [apply any_run|]. split; [vm_compute; reflexivity|]. split; [reflexivity|]. split; [reflexivity|].
  split; [reflexivity|]. split; [apply quietb_sound; vm_compute; reflexivity|]. split; [vm_compute; reflexivity|].
  eexists. split; vm_compute; reflexivity.
Qed.
Example C17_context_case : exists w1, (let! a := context 0 in ctx_enter a) before = (w1, Ok tt) /\
  no_freeze Z (calls [H 0; CX 0 1]) /\ executes Z ztrue Z.eqb (fun _ => no_edit Z 0) (calls [H 0; CX 0 1]) w1 /\
  collects Z ztrue Z.eqb (fun _ => True) (calls [H 0; CX 0 1]) w1 [2; 3].
Proof.
  eexists. split; [vm_compute; reflexivity|]. split; [vm_compute; auto|]. split; [apply quietb_sound; vm_compute; reflexivity|].
  cbn [collects calls].
  match goal with |- context [match ?m with _ => _ end] => let t := eval vm_compute in m in change m with t end. cbv beta iota.
  exists [2], [3]. split; [reflexivity|].
  split; split; try (intros _; vm_compute; reflexivity); intros N; now destruct N.
Qed.
Example C17_frozen_case : exists v, zreaches (any Z) v /\ w_active v = Some 0 /\ no_freeze Z (calls [H 0; CX 0 1]) /\
  executes Z ztrue Z.eqb (fun _ => no_edit Z 0) (Frozen (calls [H 0; CX 0 1])) v /\
  snd (zrun (Frozen (calls [H 0; CX 0 1])) v) = Ok tt /\ List.length (w_op (fst (zrun (Frozen (calls [H 0; CX 0 1])) v))) = 2.
Proof.
  assert (R : zreaches (any Z) (fst ((let! a := context 0 in ctx_enter a) (fst (zrun (calls [CNew Z false (Some 2) None]) (zstart gates)))))).
  { exists gates, (Seq (calls [CNew Z false (Some 2) None]) (With 0 Skip)). split; [vm_compute; auto|]. vm_compute. auto 10. }
  eexists. split; [exact R|]. split; [vm_compute; reflexivity|]. split; [vm_compute; auto|].
  split; [apply quietb_sound; vm_compute; reflexivity|]. split; vm_compute; reflexivity.
Qed.
Example C17_once_case : reaches Z ztrue Z.eqb (fun _ => no_append Z) (fst (zrun busy before)) /\ no_with Z (calls [H 0]).
Proof.
  split; [|vm_compute; auto].
  assert (E : fst (zrun busy before) = fst (zrun (Seq setup busy) (zstart gates))) by (vm_compute; reflexivity). rewrite E.
  apply (reaches_run Z ztrue Z.eqb (fun _ => quietb)); [|vm_compute; reflexivity]. intros v x Hx. destruct x; try discriminate Hx; exact I.
Qed.

(** The end of the inner of two nested freezes ends the outer one: the gate built after it, still inside the
    outer freeze, is recorded. *)
Definition twice_frozen : prog Z := Frozen (Seq (Frozen (calls [H 0])) (calls [H 1])).
Theorem C17_nested_freeze_refuted :
  exists v x x', zreaches (any Z) v /\ w_active v = Some 0 /\ nth_error (w_circ v) 0 = Some x /\ c_ops x = [] /\
    executes Z ztrue Z.eqb (fun _ => no_edit Z 0) twice_frozen v /\ snd (zrun twice_frozen v) = Ok tt /\
    nth_error (w_circ (fst (zrun twice_frozen v))) 0 = Some x' /\ c_ops x' = [1].
Proof.
  assert (R : zreaches (any Z) (fst ((let! a := context 0 in ctx_enter a) (fst (zrun (calls [CNew Z false (Some 2) None]) (zstart gates)))))).
  { exists gates, (Seq (calls [CNew Z false (Some 2) None]) (With 0 Skip)). split; [vm_compute; auto|]. vm_compute. auto 10. }
  eexists _, _, _. split; [exact R|]. split; [vm_compute; reflexivity|]. split; [vm_compute; reflexivity|]. split; [reflexivity|].
  split; [apply quietb_sound; vm_compute; reflexivity|]. split; [vm_compute; reflexivity|]. split; vm_compute; reflexivity.
Qed.
Print Assumptions C17_nested_freeze_refuted.

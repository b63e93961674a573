(** Property C66: evaluating parametric circuits, on a copy and in place. *)
From Coq Require Import List ZArith String Bool Arith.
From Verif Require Import Py RegisterModel WorldModel WorldSpec WorldCheck PropsContext EvalModel EvalSpec EvalProofs EvalApplied.
Import ListNotations.
Local Open Scope string_scope.
Local Open Scope list_scope.
Local Open Scope nat_scope.

(** The circuit that [eval] returns has one operation for every operation: the parametric ones with every variable
    replaced as [bound] says, the others as they are. *)
Theorem C66_copy :
  forall P ptrue (w : world P) c x given zs,
    nth_error (w_circ w) c = Some x -> eval_copy P ptrue w c given = Ok zs ->
    List.length zs = List.length (c_ops x) /\
    forall i o, nth_error (c_ops x) i = Some o -> exists y z,
      nth_error (w_op w) o = Some y /\ nth_error zs i = Some z /\
      (parametric P w y -> evaluated P ptrue w given i y (cp_op P z)) /\ (~ parametric P w y -> cp_op P z = y).
Proof. exact eval_copy_ok. Qed.
Print Assumptions C66_copy.

(** It succeeds exactly when every variable has something to take. *)
Theorem C66_copy_succeeds :
  forall P ptrue (w : world P) c x given,
    nth_error (w_circ w) c = Some x -> c_par x = true ->
    (forall o, In o (c_ops x) -> exists y k, nth_error (w_op w) o = Some y /\ nth_error (w_cls w) (o_cls y) = Some k) ->
    ((exists zs, eval_copy P ptrue w c given = Ok zs) <->
     forall i o y, nth_error (c_ops x) i = Some o -> nth_error (w_op w) o = Some y -> can_bind P ptrue w given i y).
Proof. exact eval_copy_can. Qed.
Print Assumptions C66_copy_succeeds.

(** An evaluated operation stays as it is when evaluated again, whatever is given and whatever the variables hold then. *)
Theorem C66_again :
  forall P ptrue (w w' : world P) g g' x y,
    op_eval_copy P ptrue w g x = Ok y -> op_eval_copy P ptrue w' g' y = Ok y.
Proof. exact op_eval_again. Qed.
Print Assumptions C66_again.

(** In place, a circuit of different operation objects becomes the circuit that is returned otherwise; nothing else
    changes, and an exception is the same one. *)
Theorem C66_in_place_partial :
  forall P ptrue (w : world P) c x given,
    nth_error (w_circ w) c = Some x -> NoDup (c_ops x) ->
    (forall zs, eval_copy P ptrue w c given = Ok zs ->
       exists w', eval_circuit ptrue c given w = (w', Ok tt) /\ same_rest P w w' /\
         (forall o, ~ In o (c_ops x) -> nth_error (w_op w') o = nth_error (w_op w) o) /\
         map (nth_error (w_op w')) (c_ops x) = map (fun z => Some (cp_op P z)) zs) /\
    (forall e, eval_copy P ptrue w c given = Err e ->
       exists w', eval_circuit ptrue c given w = (w', Err e) /\ same_rest P w w' /\
         (forall o, ~ In o (c_ops x) -> nth_error (w_op w') o = nth_error (w_op w) o)).
Proof. exact eval_agree. Qed.
Print Assumptions C66_in_place_partial.

(** A simulation applies the same operations of both, if no parametric operation is conditioned on a bit that a
    measurement of the circuit writes. *)
Theorem C66_conditions_partial :
  forall P ptrue (w w' : world P) c x given zs ys out init,
    nth_error (w_circ w) c = Some x -> NoDup (c_ops x) ->
    eval_copy P ptrue w c given = Ok zs -> eval_circuit ptrue c given w = (w', Ok tt) ->
    map (nth_error (w_op w')) (c_ops x) = map Some ys ->
    (forall o y m z k b, In o (c_ops x) -> nth_error (w_op w) o = Some y -> parametric P w y ->
       In m (c_ops x) -> nth_error (w_op w) m = Some z -> nth_error (w_cls w) (o_cls z) = Some k -> k_kind k = KMeas ->
       In b (conds P y) -> ~ In b (stored P z)) ->
    applied P w out 0 (fun _ => init) zs = applied P w out 0 (fun _ => init) (map (fun y => mkCopied P y Common) ys).
Proof. exact eval_conditions. Qed.
Print Assumptions C66_conditions_partial.

(** [RX] on a number, [RX] on a variable and [Hadamard] *)
Definition RXv v q : call Z := CConstruct 2 (Some [PVar v]) (AQ (Some [IQubit q])).
Definition with_variable : prog Z :=
  Seq (calls [CNew _ true (Some 2) (Some 1)])
      (With 0 (calls [CGetParam _ 0 0; CConstruct 2 (Some [PNum 7%Z]) (AQ (Some [IQubit 0])); RXv 0 1; H 0])).
Definition variable_world : world Z := fst (zrun with_variable (zstart gates)).
Definition shown (r : res (list (copied Z))) : option (list (nat * list (param Z))) :=
  match r with Ok zs => Some (map (fun z => (o_cls (cp_op Z z), o_params (cp_op Z z))) zs) | Err _ => None end.
Example C66_case :
  exists x, nth_error (w_circ variable_world) 0 = Some x /\ c_ops x = [0; 1; 2] /\ NoDup (c_ops x) /\
    shown (eval_copy Z ztrue variable_world 0 [[1]; [2]; [3]]%Z) = Some [(2, [PNum 7%Z]); (2, [PNum 2%Z]); (0, [])] /\
    eval_copy Z ztrue variable_world 0 [] = Err ValueError /\ eval_copy Z ztrue variable_world 0 [[1]]%Z = Err IndexError.
Proof.
  eexists. split; [vm_compute; reflexivity|]. split; [reflexivity|]. split; [repeat constructor; cbn; intuition discriminate|].
  repeat split; vm_compute; reflexivity.
Qed.

(** An operation object that was appended twice takes the numbers of its first position at both in place, but not on a copy. *)
Definition appended_twice : prog Z :=
  Seq (calls [CNew _ true (Some 1) None]) (Seq (With 0 (calls [CGetParam _ 0 0; RXv 0 0])) (calls [CUnlock _ 0; CAppend _ 0 0])).
Theorem C66_in_place_refuted :
  exists (v : world Z) x zs v', zreaches (any Z) v /\ nth_error (w_circ v) 0 = Some x /\ c_ops x = [0; 0] /\
    eval_copy Z ztrue v 0 [[1]; [2]]%Z = Ok zs /\ map (fun z => o_params (cp_op Z z)) zs = [[PNum 1]; [PNum 2]]%Z /\
    eval_circuit ztrue 0 [[1]; [2]]%Z v = (v', Ok tt) /\ option_map (@o_params Z) (nth_error (w_op v') 0) = Some [PNum 1%Z].
Proof.
  exists (fst (zrun appended_twice (zstart gates))). do 3 eexists. split; [apply any_run|]. split; [vm_compute; reflexivity|].
  split; [reflexivity|]. split; [vm_compute; reflexivity|]. split; [reflexivity|]. split; vm_compute; reflexivity.
Qed.
Print Assumptions C66_in_place_refuted.

(** In place, an exception leaves the operations before it evaluated. *)
Definition two_variables : prog Z :=
  Seq (calls [CNew _ true (Some 1) None]) (With 0 (calls [CGetParam _ 0 1; RXv 0 0; RXv 1 0])).
Theorem C66_all_or_nothing_refuted :
  exists (v : world Z) x v', zreaches (any Z) v /\ nth_error (w_circ v) 0 = Some x /\ c_ops x = [0; 1] /\
    map (@o_params Z) (w_op v) = [[PVar 0]; [PVar 1]] /\
    eval_circuit ztrue 0 [[5]]%Z v = (v', Err IndexError) /\ map (@o_params Z) (w_op v') = [[PNum 5%Z]; [PVar 1]].
Proof.
  exists (fst (zrun two_variables (zstart gates))). do 2 eexists. split; [apply any_run|]. split; [vm_compute; reflexivity|].
  split; [reflexivity|]. split; [vm_compute; reflexivity|]. split; vm_compute; reflexivity.
Qed.
Print Assumptions C66_all_or_nothing_refuted.

(** A variable with the value 0 counts as one without a value, although 0 is accepted when given. *)
Theorem C66_zero_refuted :
  exists (v : world Z) x, zreaches (any Z) v /\ nth_error (w_circ v) 0 = Some x /\ c_ops x = [0; 1] /\
    (forall n, In n (c_vars x) -> exists s, nth_error (w_var v) n = Some (s, Some 0%Z)) /\
    eval_copy Z ztrue v 0 [] = Err ValueError /\
    shown (eval_copy Z ztrue v 0 [[0]; [0]]%Z) = Some [(2, [PNum 0%Z]); (2, [PNum 0%Z])].
Proof.
  exists (fst (zrun (Seq two_variables (calls [CVarSet 0 (Some 0%Z); CVarSet 1 (Some 0%Z)])) (zstart gates))). eexists.
  split; [apply any_run|]. split; [vm_compute; reflexivity|]. split; [reflexivity|]. split; [|split; vm_compute; reflexivity].
  intros n Hn. cbn in Hn. destruct Hn as [<-|[<-|[]]]; eexists; vm_compute; reflexivity.
Qed.
Print Assumptions C66_zero_refuted.

(** On a copy, a parametric operation is conditioned on bits of its own, which no measurement writes: a qubit is measured
    with outcome 0, and an [RX] conditioned on that outcome is applied nevertheless.  In place it is passed over. *)
Definition measured_condition : prog Z :=
  Seq (calls [CNew _ true (Some 1) (Some 1)])
  (Seq (With 0 (calls [CGetParam _ 0 0; CConstruct 3 None (AQ (Some [IQubit 0])); RXv 0 0]))
       (calls [CStore _ 0 [IBit 0]; CCond _ 1 [IBit 0]])).
Theorem C66_conditions_refuted :
  exists (v v' : world Z) x zs ys, zreaches (any Z) v /\ nth_error (w_circ v) 0 = Some x /\ c_ops x = [0; 1] /\
    nth_error (w_bit v) 0 = Some (LStr "0", None) /\
    eval_copy Z ztrue v 0 [[1]; [1]]%Z = Ok zs /\ eval_circuit ztrue 0 [[1]; [1]]%Z v = (v', Ok tt) /\
    map (nth_error (w_op v')) (c_ops x) = map Some ys /\
    applied Z v (fun _ _ => false) 0 (fun _ _ => None) zs = [true; true] /\
    applied Z v (fun _ _ => false) 0 (fun _ _ => None) (map (fun y => mkCopied Z y Common) ys) = [true; false].
Proof.
  exists (fst (zrun measured_condition (zstart gates))). do 2 eexists. eexists.
  exists (map (cp_op Z) (match eval_copy Z ztrue (fst (zrun measured_condition (zstart gates))) 0 [[1]; [1]]%Z with Ok zs => zs | Err _ => [] end)).
  split; [apply any_run|]. split; [vm_compute; reflexivity|]. split; [reflexivity|]. split; [vm_compute; reflexivity|].
  split; [vm_compute; reflexivity|]. split; [vm_compute; reflexivity|]. split; [vm_compute; reflexivity|].
  split; vm_compute; reflexivity.
Qed.
Print Assumptions C66_conditions_refuted.

(** [applied] is what the code says about bits and conditions: an operation is passed over exactly when one of its
    conditions is a bit whose last written outcome, or first value, is 0. *)
Theorem C66_applied :
  forall P (w : world P) out init zs,
    applies P owner (map (owned P) zs) (measures P w) out init (applied P w out 0 init zs).
Proof. exact eval_applied. Qed.
Print Assumptions C66_applied.

(** Two qubits measured at once into two bits, with outcomes 1 and 0, and an operation on either bit *)
Definition measured_pair : prog Z :=
  Seq (calls [CNew _ true (Some 2) (Some 2)])
  (Seq (With 0 (calls [CGetParam _ 0 0; CConstruct 3 None (AQ (Some [IQubit 0; IQubit 1])); H 0; H 1]))
       (calls [CStore _ 0 [IBit 0; IBit 1]; CCond _ 1 [IBit 0]; CCond _ 2 [IBit 1]])).
Example C66_applied_case :
  exists zs, eval_copy Z ztrue (fst (zrun measured_pair (zstart gates))) 0 [] = Ok zs /\
    applied Z (fst (zrun measured_pair (zstart gates))) (fun _ j => Nat.eqb j 0) 0 (fun _ _ => None) zs = [true; true; false] /\
    applied Z (fst (zrun measured_pair (zstart gates))) (fun _ j => Nat.eqb j 1) 0 (fun _ _ => None) zs = [true; false; true].
Proof. eexists. split; [vm_compute; reflexivity|]. repeat split; vm_compute; reflexivity. Qed.

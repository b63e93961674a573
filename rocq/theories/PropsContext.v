(** Properties C11, C15, C16, C20, C25, C57, C58 (construction) and C59: bits, locks, contexts, variables
    and operations. *)
From Coq Require Import List ZArith Ascii String Bool Arith Lia.
From Verif Require Import Py RegisterModel WorldModel WorldSpec WorldSpec2 WorldCheck WorldCtx2 WorldOps CtxProofs.
Import ListNotations.
Local Open Scope string_scope.
Local Open Scope list_scope.
Local Open Scope nat_scope.

Notation any P := (fun (_ : world P) (_ : call P) => True).

(** H, CX, RX, measurement, CX before its number of qubits was read, CRX, SWAP. *)
Definition gates : list cls :=
  [mkCls "Hadamard" KPlain (Some 1) None None None; mkCls "CX" KCtrl (Some 2) (Some 1) (Some 1) None;
   mkCls "RX" KParam (Some 1) None None (Some 1); mkCls "Measurement" KMeas None None None None;
   mkCls "CZ" KCtrl None (Some 1) (Some 1) None; mkCls "CRX" KParCtrl None (Some 1) (Some 1) (Some 1);
   mkCls "SWAP" KPlain (Some 2) None None None].
Definition H q : call Z := CConstruct 0 None (AQ (Some [IQubit q])).
Definition CX p q : call Z := CConstruct 1 None (AQ (Some [IQubit p; IQubit q])).
Lemma any_run ks p : zreaches (any Z) (fst (zrun p (zstart ks))).
Proof.
  apply (reaches_run Z ztrue Z.eqb (fun _ _ => true)); [auto|].
  generalize (zstart ks). induction p; intros w; simpl; auto.
  - rewrite IHp1. cbn [andb]. destruct (zrun p1 w) as [w' [u|e]]; auto.
  - match goal with |- (let (_, _) := ?m w in _) = _ => destruct (m w) as [w' [u|e]]; auto end.
  - destruct (set_frozen _ _ w) as [w' [u|e]]; auto.
Qed.

(** ** C11: bits *)

Theorem C11_set :
  forall P (w : world P) b l old v f,
    nth_error (w_bit w) b = Some (l, old) ->
    (old = None \/ f = true -> snd (bit_set b v f w) = Ok tt /\ bit_value P (fst (bit_set b v f w)) b = Some v) /\
    (old <> None -> f = false -> bit_set b v f w = (w, Err ValueError)).
Proof. exact set_bit_spec. Qed.
Print Assumptions C11_set.

Theorem C11_reset :
  forall P (w : world P) b l old,
    nth_error (w_bit w) b = Some (l, old) ->
    snd (bit_reset b w) = Ok tt /\ bit_value P (fst (bit_reset b w)) b = None.
Proof. exact reset_bit_spec. Qed.
Print Assumptions C11_reset.

(** After any sequence of calls, failing or not, the value is what the settings and resets of this bit say. *)
Theorem C11_sequences :
  forall P ptrue peqb b (l : list (call P)) (w : world P),
    b < List.length (w_bit w) -> Forall (no_reset P) l ->
    bit_value P (fst (run ptrue peqb (tries P l) w)) b = fold_left (bit_after P b) l (bit_value P w b).
Proof. exact bits_sequence. Qed.
Print Assumptions C11_sequences.

(** Nothing else changes it, wherever it happens. *)
Theorem C11_kept :
  forall P ptrue peqb b p (w v : world P),
    b < List.length (w_bit w) -> executes P ptrue peqb (fun _ => spares_bit P b) p w -> visits P ptrue peqb p w v ->
    bit_value P v b = bit_value P w b.
Proof. exact bit_visits. Qed.
Print Assumptions C11_kept.

Definition two_bits : world Z := fst (zrun (calls [CNew _ false (Some 1) (Some 2)]) (zstart gates)).
Example C11_case :
  fold_left (bit_after Z 0) [CBitSet _ 0 true false; CBitSet _ 0 false false; CBitSet _ 1 false false; CBitSet _ 0 false true; CBits _ 0]
    (bit_value Z two_bits 0) = Some false /\
  Forall (no_reset Z) [CBitSet _ 0 true false; CBitSet _ 0 false false; CBitSet _ 1 false false; CBitSet _ 0 false true; CBits _ 0] /\
  0 < List.length (w_bit two_bits).
Proof. split; [reflexivity|]. split; [repeat constructor|vm_compute; auto]. Qed.
Example C11_kept_case : executes Z ztrue Z.eqb (fun _ => spares_bit Z 0) (With 0 (calls [H 0; CBitSet _ 1 true false; CBitReset _ 1])) two_bits.
Proof. apply (executesb_sound Z ztrue Z.eqb (fun _ x => match x with CBitSet _ 1 _ _ | CBitReset _ 1 | CConstruct _ _ _ => true | _ => false end)); [|reflexivity].
  intros w x Hx. destruct x; try discriminate Hx; simpl; auto; destruct b as [|[|b]]; try discriminate Hx; discriminate. Qed.

(** ** C15: a locked circuit does not grow *)

Theorem C15_append :
  forall P ptrue (w : world P) c x o os,
    nth_error (w_circ w) c = Some x -> c_locked x = true ->
    append_op ptrue c o w = (w, Err CircuitError) /\ extend_ops ptrue c (o :: os) w = (w, Err CircuitError).
Proof. exact locked_append. Qed.
Print Assumptions C15_append.

(** Entering its context raises; at most a context object is created. *)
Theorem C15_enter :
  forall P ptrue peqb (v : world P) c x body,
    reaches P ptrue peqb (any P) v -> nth_error (w_circ v) c = Some x -> c_locked x = true ->
    let w' := fst (run ptrue peqb (With c body) v) in
    snd (run ptrue peqb (With c body) v) = Err CircuitError /\ w_op w' = w_op v /\ w_active w' = w_active v /\
    others_same c v w' /\ exists f, nth_error (w_circ w') c = Some (with_ctx x f).
Proof. exact locked_enter_raises. Qed.
Print Assumptions C15_enter.

(** Building operations and calling circuits that have operations, when the circuit is locked inside its own
    context.  The exception is CircuitError whenever the same call goes through in a frozen context, that is
    unless its arguments are wrong. *)
Theorem C15_build :
  forall P ptrue peqb (w : world P) a c x y,
    w_active w = Some a -> nth_error (w_ctx w) a = Some (c, false) ->
    nth_error (w_circ w) c = Some x -> c_locked x = true -> builds P w y ->
    (exists e, snd (do_call ptrue peqb y w) = Err e /\
       (snd (do_call ptrue peqb y (set_ctx w (set_nth a (c, true) (w_ctx w)))) = Ok tt -> e = CircuitError)) /\
    exists x', nth_error (w_circ (fst (do_call ptrue peqb y w))) c = Some x' /\ c_locked x' = true /\ c_ops x' = c_ops x.
Proof. exact locked_build. Qed.
Print Assumptions C15_build.

(** Whatever happens short of unlock, reset and remove, it stays locked with its operations. *)
Theorem C15_unchanged :
  forall P ptrue peqb (w v : world P) c x p,
    nth_error (w_circ w) c = Some x -> c_locked x = true ->
    executes P ptrue peqb (fun _ => spares P c) p w -> visits P ptrue peqb p w v ->
    exists x', nth_error (w_circ v) c = Some x' /\ c_locked x' = true /\ c_ops x' = c_ops x.
Proof. exact locked_stays. Qed.
Print Assumptions C15_unchanged.

Definition locked_demo : world Z :=
  fst (zrun (Seq (calls [CNew _ false (Some 2) None]) (With 0 (calls [H 0; CX 0 1]))) (zstart gates)).
Example C15_case : exists x, nth_error (w_circ locked_demo) 0 = Some x /\ c_locked x = true /\ c_ops x = [0; 1] /\ zreaches (any Z) locked_demo.
Proof. eexists. split; [vm_compute; reflexivity|]. split; [reflexivity|]. split; [reflexivity|apply any_run]. Qed.
(** Locked inside its context: H(q0) raises CircuitError. *)
Definition locked_inside : world Z :=
  fst (do_call ztrue Z.eqb (CLock _ 0) (fst ((let! a := context 0 in ctx_enter a) (fst (zrun (calls [CNew _ false (Some 2) None]) (zstart gates)))))).
Example C15_build_case : exists x, w_active locked_inside = Some 0 /\ nth_error (w_ctx locked_inside) 0 = Some (0, false) /\
  nth_error (w_circ locked_inside) 0 = Some x /\ c_locked x = true /\ builds Z locked_inside (H 0) /\
  snd (do_call ztrue Z.eqb (H 0) (set_ctx locked_inside [(0, true)])) = Ok tt.
Proof. eexists. split; [reflexivity|]. split; [reflexivity|]. split; [vm_compute; reflexivity|]. split; [reflexivity|]. split; [exact I|reflexivity]. Qed.
Example C15_unchanged_case : exists p, executes Z ztrue Z.eqb (fun _ => spares Z 0) p locked_demo /\
  w_active (fst (zrun p locked_demo)) = None /\ List.length (w_circ (fst (zrun p locked_demo))) = 2.
Proof.
  exists (Seq (Try (Do (CAppend _ 0 0))) (Seq (Do (CNew _ false (Some 1) None)) (With 1 (calls [CConstruct 0 None (AQ (Some [IQubit 2])); CLock _ 0])))).
  split; [|split; reflexivity].
  apply (executesb_sound Z ztrue Z.eqb (fun _ x => match x with CUnlock _ _ | CReset _ _ _ | CRemove _ _ _ => false | _ => true end)); [|reflexivity].
  intros w x Hx. destruct x; try discriminate Hx; exact I.
Qed.

(** Two ways to use a locked circuit without an exception: extend with nothing, and calling a circuit
    without operations into it. *)
Theorem C15_nothing_to_add_refuted :
  exists (w : world Z) x, zreaches (any Z) w /\ nth_error (w_circ w) 0 = Some x /\ c_locked x = true /\
    extend_ops ztrue 0 [] w = (w, Ok tt).
Proof.
  exists locked_demo. eexists. split; [apply any_run|]. split; [vm_compute; reflexivity|]. split; reflexivity.
Qed.
Print Assumptions C15_nothing_to_add_refuted.
Theorem C15_empty_call_refuted :
  exists p, snd (zrun p (zstart gates)) = Ok tt /\
    p = Seq (calls [CNew _ false (Some 1) None; CNew _ false (Some 1) None]) (With 0 (calls [CLock _ 0; CCall _ 1 [IQubit 0] BNone])).
Proof. eexists. split; [|reflexivity]. vm_compute. reflexivity. Qed.
Print Assumptions C15_empty_call_refuted.

(** ** C16: contexts *)

(** Whatever the body does, a context that was entered is left: no context is active, the circuit is locked
    with the operations it had at the end of the body, and the exception of the body is passed on. *)
Theorem C16_exit :
  forall P ptrue peqb (v w1 : world P) c body,
    reaches P ptrue peqb (any P) v -> (let! a := context c in ctx_enter a) v = (w1, Ok tt) ->
    let w2 := fst (run ptrue peqb body w1) in
    let w3 := fst (run ptrue peqb (With c body) v) in
    snd (run ptrue peqb (With c body) v) = snd (run ptrue peqb body w1) /\ w_active w3 = None /\
    (exists y z, nth_error (w_circ w2) c = Some y /\ nth_error (w_circ w3) c = Some z /\ c_locked z = true /\
       c_ops z = c_ops y /\ c_q z = c_q y /\ c_b z = c_b y) /\
    others_same c w2 w3 /\ w_op w3 = w_op w2 /\ w_qubit w3 = w_qubit w2 /\ w_bit w3 = w_bit w2.
Proof. exact leave_context. Qed.
Print Assumptions C16_exit.

(** Entering while a context is active raises and changes nothing, except that the second circuit gets its
    context object. *)
Theorem C16_second_context :
  forall P ptrue peqb (v : world P) c x body a,
    reaches P ptrue peqb (any P) v -> w_active v = Some a -> nth_error (w_circ v) c = Some x ->
    let w' := fst (run ptrue peqb (With c body) v) in
    snd (run ptrue peqb (With c body) v) = Err (if c_locked x then CircuitError else RuntimeError) /\
    w_active w' = Some a /\ w_op w' = w_op v /\ w_qubit w' = w_qubit v /\ w_bit w' = w_bit v /\ w_var w' = w_var v /\
    w_exit w' = w_exit v /\ others_same c v w' /\ exists f, nth_error (w_circ w') c = Some (with_ctx x f).
Proof. exact enter_busy. Qed.
Print Assumptions C16_second_context.

(** All through the body it is the context of this circuit that is active. *)
Theorem C16_inside :
  forall P ptrue peqb (v w1 w2 : world P) c body,
    reaches P ptrue peqb (any P) v -> (let! a := context c in ctx_enter a) v = (w1, Ok tt) ->
    visits P ptrue peqb body w1 w2 ->
    exists a f, w_active w2 = Some a /\ nth_error (w_ctx w2) a = Some (c, f).
Proof. exact inside_context. Qed.
Print Assumptions C16_inside.

(** So programs end without an active context (the conditions are those of C12). *)
Theorem C16_balanced_partial :
  forall P ptrue peqb p ks,
    executes P ptrue peqb (classical_ok P ptrue peqb) p (start P ks) -> small P (fst (run ptrue peqb p (start P ks))) ->
    w_active (fst (run ptrue peqb p (start P ks))) = None.
Proof. exact balanced_classical. Qed.
Print Assumptions C16_balanced_partial.
Theorem C16_balanced_without_values_partial :
  forall P ptrue peqb p ks,
    executes P ptrue peqb (quiet_ok P) p (start P ks) -> small P (fst (run ptrue peqb p (start P ks))) ->
    w_active (fst (run ptrue peqb p (start P ks))) = None.
Proof. exact balanced_quiet. Qed.
Print Assumptions C16_balanced_without_values_partial.

Definition nested : prog Z := Seq (calls [CNew _ false (Some 2) None; CNew _ false (Some 1) (Some 1)])
  (Seq (Try (With 0 (Seq (calls [H 0]) (Seq (Try (With 1 (calls [H 2]))) (Seq (calls [CX 0 1]) (Raise KeyError))))))
       (With 1 (Frozen (calls [H 2])))).
Example C16_case : executes Z ztrue Z.eqb (quiet_ok Z) nested (zstart gates) /\ small Z (fst (zrun nested (zstart gates))) /\
  (exists x y, nth_error (w_circ (fst (zrun nested (zstart gates)))) 0 = Some x /\ c_ops x = [0; 1] /\ c_locked x = true /\
     nth_error (w_circ (fst (zrun nested (zstart gates)))) 1 = Some y /\ c_ops y = [] /\ c_locked y = true).
Proof.
  split; [|split; [vm_compute; auto|]].
  - apply (executesb_sound Z ztrue Z.eqb (fun _ y => ownb Z y && match y with CBitSet _ _ _ _ => false | _ => true end)); [|reflexivity].
    intros w y Hy. apply andb_true_iff in Hy. destruct Hy as [H1 H2]. split; destruct y; try discriminate H1; try discriminate H2; exact I.
  - eexists _, _. split; [vm_compute; reflexivity|]. split; [reflexivity|]. split; [reflexivity|]. split; [vm_compute; reflexivity|auto].
Qed.
Example C16_entered : exists v w1, zreaches (any Z) v /\ (let! a := context 0 in ctx_enter a) v = (w1, Ok tt) /\
  snd (zrun (With 0 (Seq (calls [H 0]) (Raise KeyError))) v) = Err KeyError.
Proof.
  exists (fst (zrun (calls [CNew _ false (Some 2) None]) (zstart gates))). eexists. split; [apply any_run|].
  split; [vm_compute; reflexivity|reflexivity].
Qed.
Example C16_busy : exists v x, zreaches (any Z) v /\ w_active v = Some 0 /\ nth_error (w_circ v) 1 = Some x /\ c_locked x = false.
Proof.
  assert (R : zreaches (any Z) (fst ((let! a := context 0 in ctx_enter a) (fst (zrun (calls [CNew Z false (Some 2) None; CNew Z false (Some 1) None]) (zstart gates)))))).
  { exists gates, (Seq (calls [CNew Z false (Some 2) None; CNew Z false (Some 1) None]) (With 0 Skip)). split; [vm_compute; auto|]. vm_compute. auto 10. }
  eexists _, _. split; [exact R|]. split; [vm_compute; reflexivity|]. split; [vm_compute; reflexivity|reflexivity].
Qed.

(** Without the conditions: [__enter__] makes the context active and then computes [bits], which raises when
    two registers hold the integer 1, so that [__exit__] is never called. *)
Definition stuck_context : prog Z := Seq
  (calls [CNew _ false None (Some 1); CAddCReg _ 0 1 LNone; CCRegAdd _ 0 (LStr "creg0") [IInt 1]; CCRegAdd _ 0 (LStr "creg1") [IInt 1]])
  (Try (With 0 Skip)).
Theorem C16_released_refuted :
  exists v, zreaches (any Z) v /\ v = fst (zrun stuck_context (zstart [])) /\ snd (zrun stuck_context (zstart [])) = Ok tt /\ w_active v = Some 0.
Proof. eexists. split; [apply (any_run [] stuck_context)|]. split; [reflexivity|]. split; vm_compute; reflexivity. Qed.
Print Assumptions C16_released_refuted.

(** ** C20: variables are unset after the context *)

Theorem C20_unset_partial :
  forall P ptrue peqb (v : world P) u s x,
    reaches P ptrue peqb (enough P) v -> w_active v = None -> nth_error (w_var v) u = Some (s, x) -> x = None.
Proof. exact variables_unset. Qed.
Print Assumptions C20_unset_partial.

(** Any circuit on the exit list of a context has its variables unset when the context is left, by whatever
    program they were set, and also if the body raises. *)
Theorem C20_exit :
  forall P ptrue peqb (v w1 : world P) c body t x u,
    reaches P ptrue peqb (any P) v -> (let! a := context c in ctx_enter a) v = (w1, Ok tt) ->
    In t (w_exit (fst (run ptrue peqb body w1))) -> nth_error (w_circ (fst (run ptrue peqb body w1))) t = Some x -> In u (c_vars x) ->
    exists s, nth_error (w_var (fst (run ptrue peqb (With c body) v))) u = Some (s, None).
Proof. exact exit_unsets. Qed.
Print Assumptions C20_exit.

Definition template (n : nat) : prog Z := Seq (calls [CNew _ true (Some 1) None])
  (Seq (With 0 (calls [CGetParam _ 0 (n - 1); CConstruct 2 (Some [PVar 0]) (AQ (Some [IQubit 0]))])) (calls [CNew _ false (Some 1) None])).
Definition use_template : prog Z := Seq (template 1) (Try (With 1 (Seq (calls [CCallPar 0 [5%Z] [IQubit 1] BNone]) (Raise KeyError)))).
Example C20_case : zreaches (enough Z) (fst (zrun use_template (zstart gates))) /\
  w_var (fst (zrun use_template (zstart gates))) = [("0", None)] /\
  (exists x y, nth_error (w_circ (fst (zrun use_template (zstart gates)))) 1 = Some x /\ c_ops x = [1] /\
     nth_error (w_op (fst (zrun use_template (zstart gates)))) 1 = Some y /\ o_params y = [PNum 5%Z]).
Proof.
  split.
  - apply (reaches_run Z ztrue Z.eqb (fun w x => match x with CVarSet _ _ => false | CCallPar t ps _ _ =>
      match nth_error (w_circ w) t with Some y => List.length (c_vars y) <=? List.length ps | None => true end | _ => true end)); [|vm_compute; reflexivity].
    intros w x Hx. destruct x; simpl; try exact I; try discriminate Hx. intros y Hy. rewrite Hy in Hx. now apply Nat.leb_le.
  - split; [vm_compute; reflexivity|]. eexists _, _. split; [vm_compute; reflexivity|]. split; [reflexivity|]. split; [vm_compute; reflexivity|reflexivity].
Qed.
Example C20_exit_case : exists v w1, zreaches (any Z) v /\ (let! a := context 1 in ctx_enter a) v = (w1, Ok tt) /\
  let w2 := fst (zrun (calls [CCallPar 0 [5%Z] [IQubit 1] BNone]) w1) in
  In 0 (w_exit w2) /\ w_var w2 = [("0", Some 5%Z)] /\ exists x, nth_error (w_circ w2) 0 = Some x /\ In 0 (c_vars x).
Proof.
  exists (fst (zrun (template 1) (zstart gates))). eexists. split; [apply any_run|]. split; [vm_compute; reflexivity|].
  split; [vm_compute; auto|]. split; [vm_compute; reflexivity|]. eexists. split; [vm_compute; reflexivity|]. vm_compute. auto.
Qed.

(** With too few parameters the call raises IndexError after the first variables were set, and leaving the
    context does not unset them. *)
Theorem C20_too_few_refuted :
  exists v s z, zreaches (any Z) v /\ w_active v = None /\ nth_error (w_var v) 0 = Some (s, Some z) /\
    v = fst (zrun (Seq (template 2) (Try (With 1 (calls [CCallPar 0 [5%Z] [IQubit 1] BNone])))) (zstart gates)).
Proof.
  eexists _, _, _. split; [apply any_run|]. split; [|split; [|reflexivity]]; vm_compute; reflexivity.
Qed.
Print Assumptions C20_too_few_refuted.

(** ** C25: remove *)

(** When the given operation has parameters or no operation of the circuit has. *)
Theorem C25_remove_partial :
  forall P ptrue peqb (v : world P) c x op,
    reaches P ptrue peqb (any P) v -> nth_error (w_circ v) c = Some x -> op < List.length (w_op v) ->
    (parametrised P v op \/ forall el, In el (c_ops x) -> ~ parametrised P v el) ->
    (exists l1 el l2, c_ops x = l1 ++ el :: l2 /\ matches P ptrue peqb v op el /\
       Forall (fun u => ~ matches P ptrue peqb v op u) l1 /\
       remove_op ptrue peqb c op v = (set_circ v (set_nth c (with_ops x (l1 ++ l2)) (w_circ v)), Ok tt)) \/
    (Forall (fun u => ~ matches P ptrue peqb v op u) (c_ops x) /\ remove_op ptrue peqb c op v = (v, Err ValueError)).
Proof. exact remove_reached. Qed.
Print Assumptions C25_remove_partial.

(** In general: AttributeError at a parametrised operation before the first match. *)
Theorem C25_remove_general :
  forall P ptrue peqb (v : world P) c x op,
    reaches P ptrue peqb (any P) v -> nth_error (w_circ v) c = Some x -> op < List.length (w_op v) ->
    (exists l1 el l2, c_ops x = l1 ++ el :: l2 /\ matches P ptrue peqb v op el /\
       Forall (fun u => ~ matches P ptrue peqb v op u) l1 /\
       remove_op ptrue peqb c op v = (set_circ v (set_nth c (with_ops x (l1 ++ l2)) (w_circ v)), Ok tt)) \/
    (Forall (fun u => ~ matches P ptrue peqb v op u) (c_ops x) /\ remove_op ptrue peqb c op v = (v, Err ValueError)) \/
    (exists l1 el l2, c_ops x = l1 ++ el :: l2 /\ el <> op /\ parametrised P v el /\ ~ parametrised P v op /\
       Forall (fun u => ~ matches P ptrue peqb v op u) l1 /\ remove_op ptrue peqb c op v = (v, Err AttributeError)).
Proof. exact remove_any. Qed.
Print Assumptions C25_remove_general.

(** H(q0), H(q1), H(q0) and a separate H(q0) to remove. *)
Definition three : world Z :=
  fst (zrun (Seq (calls [CNew _ false (Some 2) None]) (Seq (With 0 (calls [H 1; H 0; H 0])) (calls [H 0]))) (zstart gates)).
Example C25_case : exists x, zreaches (any Z) three /\ nth_error (w_circ three) 0 = Some x /\ c_ops x = [0; 1; 2] /\ 3 < List.length (w_op three) /\
  (forall el, In el (c_ops x) -> ~ parametrised Z three el) /\
  (exists y, nth_error (w_circ (fst (remove_op ztrue Z.eqb 0 3 three))) 0 = Some y /\ c_ops y = [0; 2]) /\
  snd (remove_op ztrue Z.eqb 0 3 (fst (remove_op ztrue Z.eqb 0 3 (fst (remove_op ztrue Z.eqb 0 3 three))))) = Err ValueError.
Proof.
  eexists. split; [apply any_run|]. split; [vm_compute; reflexivity|]. split; [reflexivity|]. split; [vm_compute; auto|]. split; [|split].
  - intros el Hel (y & k & H1 & H2 & H3). vm_compute in Hel. 
    destruct Hel as [<-|[<-|[<-|[]]]]; vm_compute in H1; injection H1 as <-; vm_compute in H2; injection H2 as <-; destruct H3; discriminate.
  - eexists. split; vm_compute; reflexivity.
  - vm_compute. reflexivity.
Qed.

(** H(q0) is in the circuit, after RX(5, q0): AttributeError and nothing removed. *)
Definition mixed : world Z :=
  fst (zrun (Seq (calls [CNew _ false (Some 1) None]) (With 0 (calls [CConstruct 2 (Some [PNum 5%Z]) (AQ (Some [IQubit 0])); H 0]))) (zstart gates)).
Theorem C25_parameters_refuted :
  exists v x, zreaches (any Z) v /\ nth_error (w_circ v) 0 = Some x /\ c_ops x = [0; 1] /\
    remove_op ztrue Z.eqb 0 1 v = (v, Err AttributeError).
Proof.
  exists mixed. eexists. split; [apply any_run|]. split; [vm_compute; reflexivity|]. split; vm_compute; reflexivity.
Qed.
Print Assumptions C25_parameters_refuted.

(** ** C57: the number of qubits *)

(** A class that has its number of qubits from the start (every gate that is not controlled). *)
Theorem C57_arity_partial :
  forall P ptrue peqb ks p (v : world P) k x n ps a m,
    visits P ptrue peqb p (start P ks) v -> nth_error ks k = Some x -> k_numq x = Some n ->
    (k_kind x = KCtrl \/ k_kind x = KParCtrl -> n <> 0) ->
    fits_signature P x ps a -> gives a m -> m <> n ->
    exists y, construct ptrue k ps a v = (set_op v (w_op v ++ [y]), Err ValueError).
Proof. exact arity_history. Qed.
Print Assumptions C57_arity_partial.

(** Any class once its number of qubits is known, whatever happens later. *)
Theorem C57_known_arity_partial :
  forall P ptrue peqb (w v : world P) p k x n ps a m,
    nth_error (w_cls w) k = Some x -> k_numq x = Some (S n) -> visits P ptrue peqb p w v ->
    fits_signature P x ps a -> gives a m -> m <> S n ->
    exists y, construct ptrue k ps a v = (set_op v (w_op v ++ [y]), Err ValueError).
Proof. exact arity_settled. Qed.
Print Assumptions C57_known_arity_partial.

(** A controlled class learns it when [num_qubits] is read. *)
Theorem C57_reading_settles :
  forall P (w : world P) k x a b,
    nth_error (w_cls w) k = Some x -> k_kind x = KCtrl \/ k_kind x = KParCtrl ->
    k_numq x = None -> k_ncontrol x = Some (S a) -> k_ntarget x = Some (S b) ->
    snd (cls_num_qubits k w) = Ok (S a + S b) /\ insists P (fst (cls_num_qubits k w)) k (S a + S b).
Proof. exact settles. Qed.
Print Assumptions C57_reading_settles.

Example C57_case : fits_signature Z (nth 6 gates (mkCls "" KPlain None None None None)) None (AQ (Some [IQubit 0; IQubit 1; IQubit 2])) /\
  gives (AQ (Some [IQubit 0; IQubit 1; IQubit 2])) 3 /\
  visits Z ztrue Z.eqb nested (zstart gates) (fst (zrun nested (zstart gates))) /\
  snd (construct ztrue 6 None (AQ (Some [IQubit 0; IQubit 1; IQubit 2])) (fst (zrun nested (zstart gates)))) = Err ValueError.
Proof. split; [exact I|]. split; [now split|]. split; [vm_compute; auto|]. vm_compute. reflexivity. Qed.

(** CZ(q0, q1, q2) in a new session is accepted and recorded; the same line raises ValueError after
    [CZ.num_qubits] was read. *)
Definition cz3 : call Z := CConstruct 4 None (AQ (Some [IQubit 0; IQubit 1; IQubit 2])).
Theorem C57_controlled_refuted :
  exists p v x y, v = fst (zrun p (zstart gates)) /\ snd (zrun p (zstart gates)) = Ok tt /\
    nth_error (w_circ v) 0 = Some x /\ c_ops x = [0] /\ nth_error (w_op v) 0 = Some y /\
    o_qubits y = Some [IQubit 0; IQubit 1; IQubit 2] /\ o_cls y = 4 /\ snd (cls_num_qubits 4 v) = Ok 2 /\
    snd (zrun (Seq (Do (CNumQubits _ 4)) p) (zstart gates)) = Err ValueError.
Proof.
  exists (Seq (calls [CNew _ false (Some 3) None]) (With 0 (calls [cz3]))). eexists _, _, _. split; [reflexivity|].
  split; [vm_compute; reflexivity|]. split; [vm_compute; reflexivity|]. split; [reflexivity|]. split; [vm_compute; reflexivity|].
  split; [reflexivity|]. split; [reflexivity|]. split; vm_compute; reflexivity.
Qed.
Print Assumptions C57_controlled_refuted.

(** ** C58: repeated qubits *)

(** CX(q0, q0) is accepted and recorded. *)
Theorem C58_recorded_refuted :
  exists p v x y, v = fst (zrun p (zstart gates)) /\ snd (zrun p (zstart gates)) = Ok tt /\
    nth_error (w_circ v) 0 = Some x /\ c_ops x = [0] /\ nth_error (w_op v) 0 = Some y /\ o_qubits y = Some [IQubit 0; IQubit 0].
Proof.
  exists (Seq (calls [CNew _ false (Some 2) None]) (With 0 (calls [CX 0 0]))). eexists _, _, _. split; [reflexivity|].
  split; [vm_compute; reflexivity|]. split; [vm_compute; reflexivity|]. split; [reflexivity|]. split; [vm_compute; reflexivity|reflexivity].
Qed.
Print Assumptions C58_recorded_refuted.

(** ** C59: storing measurements *)

Theorem C59_store :
  forall P (w : world P) o x k n bs,
    nth_error (w_op w) o = Some x -> nth_error (w_cls w) (o_cls x) = Some k -> k_kind k = KMeas -> o_numq x = Some n ->
    (n <= List.length bs -> exists y l r, store o bs w = (set_op w (set_nth o y (w_op w)), Ok tt) /\
       bs = l ++ r /\ List.length l = n /\
       y = mkOp (o_cls x) (o_qubits x) (o_numq x) (o_params x) (o_control x) (o_target x) (Some l) (o_cond x)) /\
    (List.length bs < n -> store o bs w = (w, Err ValueError)).
Proof. exact store_spec. Qed.
Print Assumptions C59_store.

(** A measurement built without qubits has no number of qubits. *)
Theorem C59_no_qubits :
  forall P (w : world P) o x k bs,
    nth_error (w_op w) o = Some x -> nth_error (w_cls w) (o_cls x) = Some k -> k_kind k = KMeas -> o_numq x = None ->
    store o bs w = (w, Err TypeError).
Proof. exact store_none. Qed.
Print Assumptions C59_no_qubits.

Definition measured : world Z :=
  fst (zrun (Seq (calls [CNew _ false (Some 2) (Some 3)]) (With 0 (calls [CConstruct 3 None (AQ (Some [IQubit 0; IQubit 1]))]))) (zstart gates)).
Example C59_case : exists x k, nth_error (w_op measured) 0 = Some x /\ nth_error (w_cls measured) (o_cls x) = Some k /\ k_kind k = KMeas /\
  o_numq x = Some 2 /\ snd (store 0 [IBit 2] measured) = Err ValueError /\
  exists y, nth_error (w_op (fst (store 0 [IBit 2; IBit 0; IBit 1] measured))) 0 = Some y /\ o_bits y = Some [IBit 2; IBit 0].
Proof.
  eexists _, _. split; [vm_compute; reflexivity|]. split; [vm_compute; reflexivity|]. split; [reflexivity|]. split; [reflexivity|].
  split; [vm_compute; reflexivity|]. eexists. split; [vm_compute; reflexivity|reflexivity].
Qed.

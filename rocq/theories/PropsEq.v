(** Property C68: equality of operations (base.py:253-256, 372-375) and of QIR instructions
    (qir/instructions.py:187-221). *)
From Coq Require Import List ZArith String Bool Arith Lia Reals.
From Verif Require Import Py QirModel EqModel EqSpec EqProofs Cplx SimModel GateModel RegisterModel WorldModel WorldSpec WorldSpec2 WorldCheck WorldOps
  LinkModel PropsContext PropsLink EqProofs2.
Import ListNotations.
Local Open Scope string_scope.
Local Open Scope list_scope.
Local Open Scope nat_scope.

(** ** Operations *)

(** In every state, comparing two operations changes nothing; it raises AttributeError exactly when the left
    one has parameters and the right one has none, and otherwise tells whether they have the same name, the
    same qubits and (if the left one has any) the same parameters. *)
Theorem C68_outcome :
  forall P ptrue peqb (w : world P) a b x y,
    reaches P ptrue peqb (any P) w -> nth_error (w_op w) a = Some x -> nth_error (w_op w) b = Some y ->
    (parametrised P w a /\ ~ parametrised P w b /\ op_eq ptrue peqb a b w = (w, Err AttributeError)) \/
    ((parametrised P w a -> parametrised P w b) /\
     exists e, op_eq ptrue peqb a b w = (w, Ok e) /\ (e = true <-> same_op P ptrue peqb w a b)).
Proof. intros P ptrue peqb w a b x y Hw. exact (op_eq_outcome P ptrue peqb (any P) w Hw a b x y). Qed.
Print Assumptions C68_outcome.

Theorem C68_reflexive :
  forall P ptrue peqb (w : world P) o y,
    reaches P ptrue peqb (any P) w -> nth_error (w_op w) o = Some y -> (forall p, peqb p p = true) ->
    (forall v, In (PVar v) (o_params y) -> v < List.length (w_var w)) -> op_eq ptrue peqb o o w = (w, Ok true).
Proof. intros P ptrue peqb. exact (op_eq_refl P ptrue peqb (any P)). Qed.
Print Assumptions C68_reflexive.

(** When neither side raises. *)
Theorem C68_symmetric_partial :
  forall P ptrue peqb (w : world P) a b x y e e',
    reaches P ptrue peqb (any P) w -> nth_error (w_op w) a = Some x -> nth_error (w_op w) b = Some y ->
    (forall p q, peqb p q = true -> peqb q p = true) ->
    op_eq ptrue peqb a b w = (w, Ok e) -> op_eq ptrue peqb b a w = (w, Ok e') -> e = e'.
Proof. intros P ptrue peqb. exact (op_eq_sym P ptrue peqb (any P)). Qed.
Print Assumptions C68_symmetric_partial.

(** When the middle one has qubits and no two variables are involved. *)
Theorem C68_transitive_partial :
  forall P ptrue peqb (w : world P) a b c x y z,
    reaches P ptrue peqb (any P) w ->
    nth_error (w_op w) a = Some x -> nth_error (w_op w) b = Some y -> nth_error (w_op w) c = Some z ->
    (forall p q r, peqb p q = true -> peqb q r = true -> peqb p r = true) ->
    (forall p q, peqb p q = true -> peqb q p = true) ->
    (forall l, o_qubits y = Some l -> Forall is_qubit l) ->
    (forall u v, In (PVar u) (o_params x ++ o_params y ++ o_params z) -> In (PVar v) (o_params x ++ o_params y ++ o_params z) -> u = v) ->
    op_eq ptrue peqb a b w = (w, Ok true) -> op_eq ptrue peqb b c w = (w, Ok true) -> op_eq ptrue peqb a c w = (w, Ok true).
Proof. intros P ptrue peqb. exact (op_eq_trans P ptrue peqb (any P)). Qed.
Print Assumptions C68_transitive_partial.

(** Equal operations of the library act alike: the simulator sees the same qubits and the same gate (or two
    measurements). *)
Theorem C68_same_gate :
  forall ptrue peqb, (forall a b, peqb a b = true -> a = b) ->
  forall extra p (w : world R) a b sa sb,
    visits R ptrue peqb p (start R (library_classes ++ extra)) w ->
    op_eq ptrue peqb a b w = (w, Ok true) -> seen_op w a = Some sa -> seen_op w b = Some sb ->
    so_qubits Ccring sa = so_qubits Ccring sb /\
    match so_kind Ccring sa, so_kind Ccring sb with
    | KMeasure _ i _, KMeasure _ j _ => i = a /\ j = b
    | g, h => g = h
    end.
Proof. exact same_gate. Qed.
Print Assumptions C68_same_gate.

(** RX(v0), RX(5), RX(v0) once more and Hadamard, all on qubit 0, with v0 = 5; RX(v1) with v1 = 5; a
    conditional Hadamard; two measurements into different bits. *)
Definition RX p : call Z := CConstruct 2 (Some [p]) (AQ (Some [IQubit 0])).
Definition zoo : world Z :=
  fst (zrun (calls [CNew _ true (Some 1) (Some 2); CGetParam _ 0 0; CGetParam _ 0 1; CVarSet 0 (Some 5%Z); CVarSet 1 (Some 5%Z);
                    RX (PVar 0); RX (PNum 5%Z); RX (PVar 0); H 0; RX (PVar 1);
                    H 0; CCond _ 5 [IBit 0];
                    CConstruct 3 None (AQ (Some [IQubit 0])); CStore _ 6 [IBit 0];
                    CConstruct 3 None (AQ (Some [IQubit 0])); CStore _ 7 [IBit 1]]) (zstart gates)).
Lemma zoo_reached : zreaches (any Z) zoo.
Proof. apply any_run. Qed.
Example C68_case :
  List.length (w_op zoo) = 8 /\
  op_eq ztrue Z.eqb 0 1 zoo = (zoo, Ok true) /\ op_eq ztrue Z.eqb 1 2 zoo = (zoo, Ok true) /\ op_eq ztrue Z.eqb 0 2 zoo = (zoo, Ok true) /\
  op_eq ztrue Z.eqb 1 0 zoo = (zoo, Ok true) /\
  op_eq ztrue Z.eqb 3 0 zoo = (zoo, Ok false) /\ op_eq ztrue Z.eqb 0 3 zoo = (zoo, Err AttributeError).
Proof. vm_compute. repeat split. Qed.
Example C68_transitive_case : exists x y z,
  nth_error (w_op zoo) 0 = Some x /\ nth_error (w_op zoo) 1 = Some y /\ nth_error (w_op zoo) 2 = Some z /\
  (forall l, o_qubits y = Some l -> Forall is_qubit l) /\
  (forall u v, In (PVar u) (o_params x ++ o_params y ++ o_params z) -> In (PVar v) (o_params x ++ o_params y ++ o_params z) -> u = v) /\
  In (PVar 0) (o_params x).
Proof.
  eexists _, _, _. split; [vm_compute; reflexivity|]. split; [vm_compute; reflexivity|]. split; [vm_compute; reflexivity|]. split; [|split; [|now left]].
  - intros l [= <-]. repeat constructor. now eexists.
  - intros u v; cbn. intros [Hu|[Hu|[Hu|[]]]] [Hv|[Hv|[Hv|[]]]]; congruence.
Qed.
(** Two RX(a) on one qubit of a circuit over the library's classes. *)
Definition rtest (a b : R) : bool := if Req_EM_T a b then true else false.
Definition pair (a : R) : prog R :=
  Seq (calls [CNew _ false (Some 1) None])
      (With 0 (calls [CConstruct 7 (Some [PNum a]) (AQ (Some [IQubit 0])); CConstruct 7 (Some [PNum a]) (AQ (Some [IQubit 0]))])).
Definition pair_end (a : R) : world R := fst (run rtrue rtest (pair a) (start R library_classes)).
Definition pair_world (a : R) : world R := ltac:(let w := eval vm_compute in (pair_end a) in exact w).
Example C68_same_gate_case (a : R) :
  (forall p q, rtest p q = true -> p = q) /\ visits R rtrue rtest (pair a) (start R (library_classes ++ [])) (pair_end a) /\
  op_eq rtrue rtest 0 1 (pair_end a) = (pair_end a, Ok true) /\
  seen_op (pair_end a) 0 = Some (mkSop Ccring (gate_kind (GOne (GRX a))) (Some [0]) []) /\
  seen_op (pair_end a) 1 = Some (mkSop Ccring (gate_kind (GOne (GRX a))) (Some [0]) []).
Proof.
  assert (E : pair_end a = pair_world a) by (vm_compute; reflexivity). split; [|split; [|split; [|split]]].
  - intros p q. unfold rtest. destruct (Req_EM_T p q); [auto|discriminate].
  - rewrite app_nil_r. right. left. reflexivity.
  - rewrite E. unfold pair_world. cbn. unfold rtest. destruct (Req_EM_T a a); [reflexivity|congruence].
  - rewrite E. reflexivity.
  - rewrite E. reflexivity.
Qed.

(** Not symmetric: Hadamard == RX is False, RX == Hadamard raises. *)
Theorem C68_symmetric_refuted :
  exists (w : world Z) a b, zreaches (any Z) w /\ op_eq ztrue Z.eqb a b w = (w, Ok false) /\ op_eq ztrue Z.eqb b a w = (w, Err AttributeError).
Proof. exists zoo, 3, 0. split; [apply zoo_reached|]. vm_compute. auto. Qed.
Print Assumptions C68_symmetric_refuted.
(** With two classes of one name even True and AttributeError. *)
Definition twins : list cls := [mkCls "G" KPlain (Some 1) None None None; mkCls "G" KParam (Some 1) None None (Some 1)].
Theorem C68_names_refuted :
  exists (w : world Z) a b, zreaches (any Z) w /\ op_eq ztrue Z.eqb a b w = (w, Ok true) /\ op_eq ztrue Z.eqb b a w = (w, Err AttributeError).
Proof.
  exists (fst (zrun (calls [CNew _ false (Some 1) None; CConstruct 0 None (AQ (Some [IQubit 0])); CConstruct 1 (Some [PNum 5%Z]) (AQ (Some [IQubit 0]))]) (zstart twins))), 0, 1.
  split; [apply any_run|]. vm_compute. auto.
Qed.
Print Assumptions C68_names_refuted.
(** Not transitive: RX(v0) == RX(5) == RX(v1), but RX(v0) is not RX(v1). *)
Theorem C68_transitive_refuted :
  exists (w : world Z) a b c, zreaches (any Z) w /\ op_eq ztrue Z.eqb a b w = (w, Ok true) /\ op_eq ztrue Z.eqb b c w = (w, Ok true) /\
    op_eq ztrue Z.eqb a c w = (w, Ok false).
Proof. exists zoo, 0, 1, 4. split; [apply zoo_reached|]. vm_compute. auto. Qed.
Print Assumptions C68_transitive_refuted.
(** Equal operations need not do the same: conditions and the bits of measurements are ignored. *)
Theorem C68_conditions_refuted :
  exists (w : world Z) a b x y, zreaches (any Z) w /\ op_eq ztrue Z.eqb a b w = (w, Ok true) /\
    nth_error (w_op w) a = Some x /\ nth_error (w_op w) b = Some y /\ o_cond x = None /\ o_cond y = Some [IBit 0].
Proof. exists zoo, 3, 5. eexists _, _. split; [apply zoo_reached|]. vm_compute. repeat split. Qed.
Print Assumptions C68_conditions_refuted.
Theorem C68_bits_refuted :
  exists (w : world Z) a b x y, zreaches (any Z) w /\ op_eq ztrue Z.eqb a b w = (w, Ok true) /\
    nth_error (w_op w) a = Some x /\ nth_error (w_op w) b = Some y /\ o_bits x = Some [IBit 0] /\ o_bits y = Some [IBit 1].
Proof. exists zoo, 6, 7. eexists _, _. split; [apply zoo_reached|]. vm_compute. repeat split. Qed.
Print Assumptions C68_bits_refuted.
(** C25: so [remove(op)] can delete another operation than [op] itself: here the unconditional Hadamard, and the
    conditional one that was given stays. *)
Definition twice : world Z :=
  fst (zrun (Seq (calls [CNew _ false (Some 1) (Some 1)]) (With 0 (calls [H 0; H 0; CCond _ 1 [IBit 0]]))) (zstart gates)).
Theorem C25_itself_refuted :
  exists w x y, zreaches (any Z) w /\ nth_error (w_circ w) 0 = Some x /\ c_ops x = [0; 1] /\
    snd (remove_op ztrue Z.eqb 0 1 w) = Ok tt /\ nth_error (w_circ (fst (remove_op ztrue Z.eqb 0 1 w))) 0 = Some y /\ c_ops y = [1] /\
    option_map (@o_cond Z) (nth_error (w_op w) 0) = Some None /\ option_map (@o_cond Z) (nth_error (w_op w) 1) = Some (Some [IBit 0]).
Proof. exists twice. eexists _, _. split; [apply any_run|]. vm_compute. repeat split. Qed.
Print Assumptions C25_itself_refuted.

(** ** Instructions *)

(** Comparing instructions never raises and tells whether they have the same name, the same type, as many
    arguments of each sort and the same numbers. *)
Theorem C68_instructions :
  forall P peq (x y : instr P), exists b, instr_eq P peq x (Some y) = Ok b /\ (b = true <-> alike P peq x y).
Proof. exact instr_alike. Qed.
Print Assumptions C68_instructions.

(** Equal instructions that both execute call the same function with equal numbers and the same sorts of
    arguments, position by position. *)
Theorem C68_calls_partial :
  forall P peq D (dbl : P -> D) (deq : D -> D -> Prop), (forall p q, peq p q = true -> deq (dbl p) (dbl q)) ->
  forall (x y : instr P) f r f' r',
    instr_eq P peq x (Some y) = Ok true -> i_type P x <> EXTERNAL ->
    execute P D dbl x = Ok (Call D f r) -> execute P D dbl y = Ok (Call D f' r') -> f = f' /\ Forall2 (carg_alike D deq) r r'.
Proof. exact equal_calls. Qed.
Print Assumptions C68_calls_partial.

Definition rx i p q : instr Z := mkI Z i "rx" [ANum Z p; AQubit Z q] None.
Example C68_instructions_case :
  instr_eq Z Z.eqb (rx BASE 5%Z 0) (Some (rx BASE 5%Z 1)) = Ok true /\ instr_eq Z Z.eqb (rx BASE 5%Z 0) (Some (rx BASE 6%Z 0)) = Ok false /\
  execute Z Z (fun z => z) (rx BASE 5%Z 0) = Ok (Call Z "__quantum__qis__rx__body" [CDouble Z 5%Z; CQubit Z 0]) /\
  execute Z Z (fun z => z) (rx BASE 5%Z 1) = Ok (Call Z "__quantum__qis__rx__body" [CDouble Z 5%Z; CQubit Z 1]).
Proof. repeat split. Qed.

(** Equality does not look at the qubits, nor at the function of an external instruction, nor at the order of
    numbers and qubits; comparing with another object raises AttributeError. *)
Theorem C68_qubits_refuted :
  exists (x y : instr Z), instr_eq Z Z.eqb x (Some y) = Ok true /\ execute Z Z (fun z => z) x <> execute Z Z (fun z => z) y.
Proof. exists (rx BASE 5%Z 0), (rx BASE 5%Z 1). split; [reflexivity|discriminate]. Qed.
Print Assumptions C68_qubits_refuted.
Theorem C68_external_refuted :
  exists (x y : instr Z) f r f' r', instr_eq Z Z.eqb x (Some y) = Ok true /\
    execute Z Z (fun z => z) x = Ok (Call Z f r) /\ execute Z Z (fun z => z) y = Ok (Call Z f' r') /\ f <> f'.
Proof.
  exists (mkI Z EXTERNAL "f" [AQubit Z 0] (Some (mkFn "f" [KQ]))), (mkI Z EXTERNAL "f" [AQubit Z 0] (Some (mkFn "f1" [KQ]))).
  eexists _, _, _, _. split; [reflexivity|]. split; [reflexivity|]. split; [reflexivity|discriminate].
Qed.
Print Assumptions C68_external_refuted.
Theorem C68_order_refuted :
  exists (x y : instr Z) c, instr_eq Z Z.eqb x (Some y) = Ok true /\
    execute Z Z (fun z => z) x = Ok c /\ execute Z Z (fun z => z) y = Err TypeError.
Proof.
  exists (rx BASE 5%Z 0), (mkI Z BASE "rx" [AQubit Z 0; ANum Z 5%Z] None). eexists. repeat split.
Qed.
Print Assumptions C68_order_refuted.
Example C68_other_object : instr_eq Z Z.eqb (rx BASE 5%Z 0) None = Err AttributeError.
Proof. reflexivity. Qed.

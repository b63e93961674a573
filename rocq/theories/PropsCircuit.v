(** Properties C12, C13, C21 to C24 and C26: the registers of circuits.  [reaches ok v]: [v] is a state in
    the execution of some program all of whose calls satisfy [ok]. *)
From Coq Require Import List ZArith Ascii String Bool Arith Lia.
From Verif Require Import Py RegisterModel WorldModel WorldSpec WorldInv2 WorldInv6 WorldInv7 WorldProofs WorldLabels WorldProofs2 WorldCheck.
Import ListNotations.
Local Open Scope string_scope.
Local Open Scope list_scope.
Local Open Scope nat_scope.

(** ** C12: no qubit or bit occurs twice *)

Theorem C12_quantum_registers :
  forall P ptrue peqb (v : world P) c x,
    reaches P ptrue peqb (own_methods P) v -> small P v -> nth_error (w_circ v) c = Some x ->
    separate (s_regs (c_q x)) /\ Forall is_qubit (circuit_qubits x).
Proof. exact C12_q. Qed.
Print Assumptions C12_quantum_registers.

(** As long as nobody gives bits values, as in the histories the property lists. *)
Theorem C12_classical_registers :
  forall P ptrue peqb (v : world P) c x,
    reaches P ptrue peqb (quiet_ok P) v -> small P v -> nth_error (w_circ v) c = Some x ->
    separate (s_regs (c_b x)) /\ Forall is_bit (circuit_bits x).
Proof. exact C12_b_quiet. Qed.
Print Assumptions C12_classical_registers.

(** With values: as long as no bit holds the number of its own position when [bits] is computed. *)
Theorem C12_classical_registers_with_values :
  forall P ptrue peqb (v : world P) c x,
    reaches P ptrue peqb (classical_ok P ptrue peqb) v -> small P v -> nth_error (w_circ v) c = Some x ->
    separate (s_regs (c_b x)) /\ Forall is_bit (circuit_bits x).
Proof. exact C12_b. Qed.
Print Assumptions C12_classical_registers_with_values.

(** Without that condition a bit can be added twice: [bits] takes a bit holding 1 at position 1 for the
    number 1. *)
Definition twice : prog Z := calls
  [CNew _ false None (Some 2); CAddCReg _ 0 0 LNone; CBitSet _ 1 true false; CBits _ 0; CBitReset _ 1;
   CAddBit _ 0 (AItem 1) (LStr "creg1")].
Theorem C12_set_bit_refuted :
  exists v c x, zreaches (own_methods Z) v /\ small Z v /\ nth_error (w_circ v) c = Some x /\
    ~ separate (s_regs (c_b x)).
Proof.
  exists (fst (zrun twice (zstart []))), 0. eexists. split; [|split; [|split]].
  - apply (reaches_run Z ztrue Z.eqb (fun _ => ownb Z)); [|reflexivity]. intros w x H. destruct x; try discriminate H; exact I.
  - vm_compute. auto.
  - vm_compute. reflexivity.
  - intros [_ H]. specialize (H 0 1 _ _ _ _ (IBit 1) eq_refl eq_refl). vm_compute in H.
    assert (0 = 1) by (apply H; auto). discriminate.
Qed.
Print Assumptions C12_set_bit_refuted.

(** A circuit with two quantum and two classical registers, a bit that holds 1, operations and a context. *)
Definition demo_classes : list cls := [mkCls "H" KPlain (Some 1) None None None; mkCls "CX" KCtrl (Some 2) (Some 1) (Some 1) None].
Definition demo : prog Z := Seq (calls
  [CNew _ false (Some 2) (Some 2); CAddQReg _ 0 2 (LStr "anc"); CAddQubit _ 0 ANone (LStr "anc"); CAddCReg _ 0 1 LNone;
   CNewBit _ (LStr "extra"); CAddBit _ 0 (AItem 3) (LStr "creg1"); CBitSet _ 3 true false; CBits _ 0; CQubits _ 0])
  (With 0 (calls [CConstruct 0 None (AQ (Some [IQubit 1])); CConstruct 1 None (AQ (Some [IQubit 0; IQubit 4]))])).
Definition demo_end : world Z := fst (zrun demo (zstart demo_classes)).

Example demo_classical : zreaches (classical_ok Z ztrue Z.eqb) demo_end.
Proof. apply (reaches_run Z ztrue Z.eqb (classicalb Z ztrue Z.eqb)); [apply classicalb_sound|]. vm_compute. reflexivity. Qed.
Example demo_own : zreaches (own_methods Z) demo_end.
Proof. eapply reaches_impl; [|exact demo_classical]. intros w x H. apply H. Qed.
Example demo_kept : zreaches (fun w y => classical_ok Z ztrue Z.eqb w y /\ keeps_registers Z y) demo_end.
Proof.
  apply (reaches_run Z ztrue Z.eqb (fun w y => classicalb Z ztrue Z.eqb w y && match y with CReset _ _ false => false | _ => true end)); [|vm_compute; reflexivity].
  intros w y H. apply andb_true_iff in H. destruct H as [H1 H2]. split; [now apply classicalb_sound|].
  destruct y; simpl; auto. destruct keep; [exact I|discriminate].
Qed.
Example demo_small : small Z demo_end. Proof. vm_compute. auto. Qed.
Example demo_circuit : exists x, nth_error (w_circ demo_end) 0 = Some x /\
  circuit_qubits x = [IQubit 0; IQubit 1; IQubit 2; IQubit 3; IQubit 4] /\
  circuit_bits x = [IBit 0; IBit 1; IBit 2; IBit 3] /\ map fst (s_regs (c_q x)) = [LStr "qreg0"; LStr "anc"] /\
  c_ops x = [0; 1] /\ c_locked x = true /\ bit_value Z demo_end 3 = Some true.
Proof. eexists. split; [vm_compute; reflexivity|]. vm_compute. auto 10. Qed.
Example demo_quiet : exists v, zreaches (quiet_ok Z) v /\ small Z v /\ exists x, nth_error (w_circ v) 0 = Some x /\
  map (fun p => List.length (contents (snd p))) (s_regs (c_b x)) = [2; 2].
Proof.
  exists (fst (zrun (calls [CNew _ false None (Some 2); CAddCReg _ 0 1 (LStr "b"); CAddBit _ 0 ANone (LStr "b"); CReset _ 0 true]) (zstart []))).
  split; [|split; [vm_compute; auto|eexists; split; [vm_compute; reflexivity|reflexivity]]].
  apply (reaches_run Z ztrue Z.eqb (fun _ y => ownb Z y && match y with CBitSet _ _ _ _ => false | _ => true end)); [|reflexivity].
  intros w y H. apply andb_true_iff in H. destruct H as [H1 H2]. split; destruct y; try discriminate H1; try discriminate H2; exact I.
Qed.

(** ** C13: circuit.qubits, circuit.bits and their numbers *)

(** [qubits] is the concatenation of the registers, [num_qubits] its length, and reading them changes
    nothing but the cached view. *)
Theorem C13_qubits_partial :
  forall P ptrue peqb (v : world P) c x,
    reaches P ptrue peqb (fun w y => own_methods P w y /\ keeps_registers P y) v -> small P v ->
    nth_error (w_circ v) c = Some x ->
    exists r w', qubits c v = (w', Ok r) /\ items (core r) = Ok (circuit_qubits x) /\
      num_qubits c v = (w', Ok (List.length (circuit_qubits x))) /\
      w' = set_circ v (set_nth c (with_q x (mkSide (s_regs (c_q x)) (Some r))) (w_circ v)).
Proof. exact C13_q. Qed.
Print Assumptions C13_qubits_partial.

Theorem C13_bits_partial :
  forall P ptrue peqb (v : world P) c x,
    reaches P ptrue peqb (fun w y => classical_ok P ptrue peqb w y /\ keeps_registers P y) v -> small P v ->
    nth_error (w_circ v) c = Some x ->
    exists r w', bits c v = (w', Ok r) /\ items (core r) = Ok (circuit_bits x) /\
      num_bits c v = (w', Ok (List.length (circuit_bits x))) /\
      w' = set_circ v (set_nth c (with_b x (mkSide (s_regs (c_b x)) (Some r))) (w_circ v)).
Proof. exact (fun P ptrue peqb v c x => C13_b_of P ptrue peqb _ v c x (IB_reach P ptrue peqb)). Qed.
Print Assumptions C13_bits_partial.

Theorem C13_bits_without_values_partial :
  forall P ptrue peqb (v : world P) c x,
    reaches P ptrue peqb (fun w y => quiet_ok P w y /\ keeps_registers P y) v -> small P v ->
    nth_error (w_circ v) c = Some x ->
    exists r w', bits c v = (w', Ok r) /\ items (core r) = Ok (circuit_bits x) /\
      num_bits c v = (w', Ok (List.length (circuit_bits x))) /\
      w' = set_circ v (set_nth c (with_b x (mkSide (s_regs (c_b x)) (Some r))) (w_circ v)).
Proof.
  exact (fun P ptrue peqb v c x => C13_b_of P ptrue peqb _ v c x (fun v R S => proj1 (quiet_reach P ptrue peqb v R S))).
Qed.
Print Assumptions C13_bits_without_values_partial.

(** A circuit that has a quantum register, after any calls at all of the circuit's methods. *)
Theorem C13_qubits_of_registers_partial :
  forall P ptrue peqb (v : world P) c x,
    reaches P ptrue peqb (own_methods P) v -> small P v ->
    nth_error (w_circ v) c = Some x -> s_regs (c_q x) <> [] ->
    exists r w', qubits c v = (w', Ok r) /\ items (core r) = Ok (circuit_qubits x) /\
      num_qubits c v = (w', Ok (List.length (circuit_qubits x))).
Proof. exact C13_q_registers. Qed.
Print Assumptions C13_qubits_of_registers_partial.

(** Dropping the registers does not drop the views. *)
Theorem C13_dropped_registers_refuted :
  exists v c x, zreaches (own_methods Z) v /\ small Z v /\ nth_error (w_circ v) c = Some x /\
    circuit_qubits x = [] /\ snd (num_qubits c v) = Ok 2.
Proof.
  exists (fst (zrun (calls [CNew _ false (Some 2) None; CQubits _ 0; CReset _ 0 false]) (zstart []))), 0. eexists.
  split; [|split; [vm_compute; auto|split; [vm_compute; reflexivity|split; reflexivity]]].
  apply (reaches_run Z ztrue Z.eqb (fun _ => ownb Z)); [|reflexivity]. intros w x H. destruct x; try discriminate H; exact I.
Qed.
Print Assumptions C13_dropped_registers_refuted.

(** A register changed directly is not seen by [qubits]. *)
Theorem C13_changed_register_refuted :
  exists v c x, zreaches (fun _ y => keeps_registers Z y) v /\ small Z v /\ nth_error (w_circ v) c = Some x /\
    List.length (circuit_qubits x) = 3 /\ snd (num_qubits c v) = Ok 2.
Proof.
  exists (fst (zrun (calls [CNew _ false (Some 2) None; CQubits _ 0; CNewQubit _ (LStr "a"); CQRegAdd _ 0 (LStr "qreg0") [IQubit 2]]) (zstart []))), 0.
  eexists. split; [|split; [vm_compute; auto|split; [vm_compute; reflexivity|split; reflexivity]]].
  apply (reaches_run Z ztrue Z.eqb (fun _ y => match y with CReset _ _ false => false | _ => true end)); [|reflexivity].
  intros w y H. destruct y; try exact I. destruct keep; [exact I|discriminate].
Qed.
Print Assumptions C13_changed_register_refuted.

(** [bits] takes a bit that holds 1 at position 1 for the number 1. *)
Theorem C13_set_bit_refuted :
  exists v c x r, zreaches (fun w y => own_methods Z w y /\ keeps_registers Z y) v /\ small Z v /\ nth_error (w_circ v) c = Some x /\
    circuit_bits x = [IBit 0; IBit 1] /\ snd (bits c v) = Ok r /\ contents r = [IBit 0; IInt 1].
Proof.
  exists (fst (zrun (calls [CNew _ false None (Some 2); CBitSet _ 1 true false]) (zstart []))), 0. eexists _, _.
  split; [|split; [vm_compute; auto|split; [vm_compute; reflexivity|split; [reflexivity|split; [vm_compute; reflexivity|reflexivity]]]]].
  apply (reaches_run Z ztrue Z.eqb (fun _ y => ownb Z y && match y with CReset _ _ false => false | _ => true end)); [|reflexivity].
  intros w y H. apply andb_true_iff in H. destruct H as [H1 H2]. split; destruct y; try discriminate H1; try exact I.
  destruct keep; [exact I|discriminate].
Qed.
Print Assumptions C13_set_bit_refuted.

Example demo_views : snd (num_qubits 0 demo_end) = Ok 5 /\ snd (num_bits 0 demo_end) = Ok 4.
Proof. split; vm_compute; reflexivity. Qed.

(** ** C21: reset *)

Theorem C21_reset_partial :
  forall P ptrue peqb (v : world P) c x,
    reaches P ptrue peqb (classical_ok P ptrue peqb) v -> small P v -> nth_error (w_circ v) c = Some x ->
    exists w' x', reset c true v = (w', Ok tt) /\ nth_error (w_circ w') c = Some x' /\
      c_ops x' = [] /\ c_locked x' = false /\ c_ctx x' = None /\
      s_regs (c_q x') = s_regs (c_q x) /\ s_regs (c_b x') = s_regs (c_b x) /\
      (forall b, In (IBit b) (circuit_bits x) -> bit_value P w' b = None) /\
      (s_regs (c_b x) <> [] -> forall b, ~ In (IBit b) (circuit_bits x) -> nth_error (w_bit w') b = nth_error (w_bit v) b) /\
      w_qubit w' = w_qubit v /\ others_same c v w'.
Proof. exact C21_keep. Qed.
Print Assumptions C21_reset_partial.

(** Without registers, from any state. *)
Theorem C21_reset_registers_partial :
  forall P (v : world P) c x, nth_error (w_circ v) c = Some x ->
    exists w' x', reset c false v = (w', Ok tt) /\ nth_error (w_circ w') c = Some x' /\
      c_ops x' = [] /\ c_locked x' = false /\ c_ctx x' = None /\
      s_regs (c_q x') = [] /\ s_regs (c_b x') = [] /\
      w_bit w' = w_bit v /\ w_qubit w' = w_qubit v /\ others_same c v w'.
Proof. exact C21_drop. Qed.
Print Assumptions C21_reset_registers_partial.

(** Full statement: no qubit remains.  False: [circuit.qubits] still has them. *)
Theorem C21_qubits_remain_refuted :
  exists v c, zreaches (own_methods Z) v /\ small Z v /\
    snd (reset c false v) = Ok tt /\ snd (num_qubits c (fst (reset c false v))) = Ok 2.
Proof.
  exists (fst (zrun (calls [CNew _ false (Some 2) None; CQubits _ 0]) (zstart []))), 0.
  split; [|split; [vm_compute; auto|split; reflexivity]].
  apply (reaches_run Z ztrue Z.eqb (fun _ => ownb Z)); [|reflexivity]. intros w x H. destruct x; try discriminate H; exact I.
Qed.
Print Assumptions C21_qubits_remain_refuted.

(** Full statement: reset of every circuit.  False: with a bit that holds 1 at position 1 it raises, and the
    circuit stays locked and the bit set, its operations gone. *)
Theorem C21_set_bit_refuted :
  exists v c x x', zreaches (own_methods Z) v /\ small Z v /\ nth_error (w_circ v) c = Some x /\ c_ops x = [0] /\
    snd (reset c true v) = Err AttributeError /\ nth_error (w_circ (fst (reset c true v))) c = Some x' /\
    c_ops x' = [] /\ c_locked x' = true /\ bit_value Z (fst (reset c true v)) 1 = Some true.
Proof.
  exists (fst (zrun (Seq (calls [CNew _ false (Some 1) (Some 2); CBitSet _ 1 true false])
                         (With 0 (Do (CConstruct 0 None (AQ (Some [IQubit 0])))))) (zstart demo_classes))), 0. eexists _, _.
  split; [|split; [vm_compute; auto|split; [vm_compute; reflexivity|]]].
  - apply (reaches_run Z ztrue Z.eqb (fun _ => ownb Z)); [|reflexivity]. intros w x H. destruct x; try discriminate H; exact I.
  - split; [reflexivity|]. split; [vm_compute; reflexivity|]. split; [vm_compute; reflexivity|]. vm_compute. auto.
Qed.
Print Assumptions C21_set_bit_refuted.

Example demo_reset : exists w' x', reset 0 true demo_end = (w', Ok tt) /\ nth_error (w_circ w') 0 = Some x' /\
  c_ops x' = [] /\ circuit_qubits x' = [IQubit 0; IQubit 1; IQubit 2; IQubit 3; IQubit 4] /\ bit_value Z w' 3 = None.
Proof. eexists _, _. split; [vm_compute; reflexivity|]. split; [vm_compute; reflexivity|]. vm_compute. auto. Qed.

(** ** C22: lookup *)

Theorem C22_find_qubit :
  forall P ptrue peqb (v : world P) c x q,
    reaches P ptrue peqb (own_methods P) v -> small P v -> nth_error (w_circ v) c = Some x ->
    exists out, find_qubit c (IQubit q) v = (v, out) /\ found (s_regs (c_q x)) (IQubit q) out.
Proof. exact C22_find_q. Qed.
Print Assumptions C22_find_qubit.

Theorem C22_find_bit :
  forall P ptrue peqb (v : world P) c x b,
    reaches P ptrue peqb (classical_ok P ptrue peqb) v -> small P v -> nth_error (w_circ v) c = Some x ->
    exists out, find_bit c (IBit b) v = (v, out) /\ found (s_regs (c_b x)) (IBit b) out.
Proof. exact C22_find_b. Qed.
Print Assumptions C22_find_bit.

(** [rl] is the name of the register to look in; a false one means all. *)
Theorem C22_get_qubit :
  forall P ptrue peqb (v : world P) c x l rl all,
    reaches P ptrue peqb (own_methods P) v -> small P v -> nth_error (w_circ v) c = Some x ->
    exists out, get_qubit c l rl all v = (v, out) /\ looked_up v (s_regs (c_q x)) l rl all out.
Proof. exact (fun P ptrue peqb v c x l rl all R S => looked_up_q P v c x l rl all (JQ_reach P ptrue peqb v R S)). Qed.
Print Assumptions C22_get_qubit.

Theorem C22_get_bit :
  forall P ptrue peqb (v : world P) c x l rl all,
    reaches P ptrue peqb (classical_ok P ptrue peqb) v -> small P v -> nth_error (w_circ v) c = Some x ->
    exists out, get_bit c l rl all v = (v, out) /\ looked_up v (s_regs (c_b x)) l rl all out.
Proof. exact (fun P ptrue peqb v c x l rl all R S => looked_up_b P v c x l rl all (proj1 (IB_reach P ptrue peqb v R S))). Qed.
Print Assumptions C22_get_bit.

Example demo_find : find_qubit 0 (IQubit 4) demo_end = (demo_end, Ok (1, LStr "anc", 2%Z)) /\
  find_qubit 0 (IQubit 7) demo_end = (demo_end, Err ValueError) /\
  find_bit 0 (IBit 3) demo_end = (demo_end, Ok (1, LStr "creg1", 1%Z)) /\
  get_qubit 0 (LStr "3") LNone false demo_end = (demo_end, Ok [IQubit 3]) /\
  get_qubit 0 (LStr "3") (LStr "qreg0") false demo_end = (demo_end, Err ValueError) /\
  get_qubit 0 (LStr "3") (LStr "zz") false demo_end = (demo_end, Err KeyError) /\
  get_bit 0 (LStr "extra") LNone true demo_end = (demo_end, Ok [IBit 3]).
Proof. vm_compute. auto 10. Qed.

(** A register whose name is the empty string cannot be looked in. *)
Theorem C22_false_label_refuted :
  exists v c x r, zreaches (own_methods Z) v /\ small Z v /\ nth_error (w_circ v) c = Some x /\
    dget label_eqb (LStr "") (s_regs (c_q x)) = Some r /\ contents r = [IQubit 1] /\
    snd (get_qubit c (LStr "0") (LStr "") false v) = Ok [IQubit 0].
Proof.
  exists (fst (zrun (calls [CNew _ false (Some 1) None; CAddQReg _ 0 1 (LStr "")]) (zstart []))), 0. eexists _, _.
  split; [|split; [vm_compute; auto|split; [vm_compute; reflexivity|split; [vm_compute; reflexivity|split; reflexivity]]]].
  apply (reaches_run Z ztrue Z.eqb (fun _ => ownb Z)); [|reflexivity]. intros w x H. destruct x; try discriminate H; exact I.
Qed.
Print Assumptions C22_false_label_refuted.

(** ** C23: rejected additions *)

(** What [add_qubit] does.  When it raises, the quantum registers are as before, except that a register
    named for the first time stays behind, empty. *)
Theorem C23_add_qubit_partial :
  forall P ptrue peqb (v : world P) c x a l,
    reaches P ptrue peqb (own_methods P) v -> small P v -> nth_error (w_circ v) c = Some x ->
    (forall q, a = AItem q -> q < List.length (w_qubit v)) ->
    let d := target (default_qlabel x) (s_regs (c_q x)) l in
    exists w' o x', add_qubit c a l v = (w', o) /\ nth_error (w_circ w') c = Some x' /\
      others_same c v w' /\ c_b x' = c_b x /\ c_ops x' = c_ops x /\ w_bit w' = w_bit v /\
      match o with
      | Ok _ => exists q r', dget label_eqb d (s_regs (c_q x')) = Some r' /\
           contents r' = contents_at (s_regs (c_q x)) d ++ [IQubit q] /\
           (forall i, a = AItem i -> q = i) /\ (a = ANone -> q = List.length (w_qubit v)) /\
           (forall l', l' <> d -> dget label_eqb l' (s_regs (c_q x')) = dget label_eqb l' (s_regs (c_q x)))
      | Err e =>
          (s_regs (c_q x') = s_regs (c_q x) \/
           (empty_register_more (s_regs (c_q x)) (s_regs (c_q x')) /\ ~ In d (map fst (s_regs (c_q x)))))
      end /\
      (forall e, o = Err e <-> add_error IQubit (s_regs (c_q x)) d a e).
Proof. exact (fun P ptrue peqb v c x a l R S => add_qubit_cases P v c x a l (JQ_reach P ptrue peqb v R S) S). Qed.
Print Assumptions C23_add_qubit_partial.

(** What [add_bit] does, also for C24: a bit that holds 0 is replaced by a new one, and one that holds 1 and
    would come second in its register is taken for the number 1. *)
Theorem C23_add_bit_partial :
  forall P ptrue peqb (v : world P) c x a l,
    reaches P ptrue peqb (classical_ok P ptrue peqb) v -> small P v -> nth_error (w_circ v) c = Some x ->
    clear_at P v x -> (forall b, a = AItem b -> b < List.length (w_bit v)) ->
    let d := target (default_clabel x) (s_regs (c_b x)) l in
    exists w' o x', add_bit c a l v = (w', o) /\ nth_error (w_circ w') c = Some x' /\
      others_same c v w' /\ c_q x' = c_q x /\ c_ops x' = c_ops x /\ w_qubit w' = w_qubit v /\
      (exists more, w_bit w' = w_bit v ++ more) /\
      match o with
      | Ok _ => exists u r', dget label_eqb d (s_regs (c_b x')) = Some r' /\
           contents r' = contents_at (s_regs (c_b x)) d ++ [u] /\
           (forall i, a = AItem i -> bit_value P v i <> Some false ->
              (bit_value P v i = Some true -> List.length (contents_at (s_regs (c_b x)) d) <> 1) -> u = IBit i) /\
           (forall i, a = AItem i -> bit_value P v i = Some false -> u = IBit (List.length (w_bit v))) /\
           (a = ANone -> u = IBit (List.length (w_bit v))) /\
           (forall l', l' <> d -> dget label_eqb l' (s_regs (c_b x')) = dget label_eqb l' (s_regs (c_b x)))
      | Err e =>
          (s_regs (c_b x') = s_regs (c_b x) \/
           (empty_register_more (s_regs (c_b x)) (s_regs (c_b x')) /\ ~ In d (map fst (s_regs (c_b x)))))
      end /\
      (forall e, o = Err e <-> add_error IBit (s_regs (c_b x)) d a e).
Proof. exact (fun P ptrue peqb v c x a l R S => add_bit_cases P v c x a l (proj1 (IB_reach P ptrue peqb v R S)) S). Qed.
Print Assumptions C23_add_bit_partial.

(** A rejected register changes nothing at all. *)
Theorem C23_add_qregister :
  forall P ptrue peqb (v : world P) c x n l,
    reaches P ptrue peqb (own_methods P) v -> small P v -> ssize_ok (zn (List.length (w_qubit v) + n) + 1) = true ->
    nth_error (w_circ v) c = Some x ->
    let d := match l with LNone => default_qlabel x | _ => l end in
    (In d (map fst (s_regs (c_q x))) /\ add_qregister c n l v = (v, Err ValueError)) \/
    (~ In d (map fst (s_regs (c_q x))) /\ exists w' x' r, add_qregister c n l v = (w', Ok tt) /\ nth_error (w_circ w') c = Some x' /\
       s_regs (c_q x') = s_regs (c_q x) ++ [(d, r)] /\ contents r = map IQubit (seq (List.length (w_qubit v)) n) /\
       frozen_ r = Some false /\ c_b x' = c_b x /\ c_ops x' = c_ops x /\ others_same c v w' /\ w_bit w' = w_bit v /\
       exists k, w_qubit w' = w_qubit v ++ map (fun i => LStr (py_str i)) (seq k n) /\
         (s_cache (c_q x) = None \/ s_regs (c_q x) <> [] -> k = List.length (circuit_qubits x))).
Proof. exact (fun P ptrue peqb v c x n l R S => add_qregister_cases P v c x n l (JQ_reach P ptrue peqb v R S) S). Qed.
Print Assumptions C23_add_qregister.

Theorem C23_add_cregister :
  forall P ptrue peqb (v : world P) c x n l,
    reaches P ptrue peqb (classical_ok P ptrue peqb) v -> small P v -> ssize_ok (zn (List.length (w_bit v) + n) + 1) = true ->
    nth_error (w_circ v) c = Some x ->
    let d := match l with LNone => default_clabel x | _ => l end in
    (In d (map fst (s_regs (c_b x))) /\ add_cregister c n l v = (v, Err ValueError)) \/
    (~ In d (map fst (s_regs (c_b x))) /\ exists w' x' r, add_cregister c n l v = (w', Ok tt) /\ nth_error (w_circ w') c = Some x' /\
       s_regs (c_b x') = s_regs (c_b x) ++ [(d, r)] /\ contents r = map IBit (seq (List.length (w_bit v)) n) /\
       frozen_ r = Some false /\ c_q x' = c_q x /\ c_ops x' = c_ops x /\ others_same c v w' /\ w_qubit w' = w_qubit v /\
       exists k, w_bit w' = w_bit v ++ map (fun i => (LStr (py_str i), None)) (seq k n) /\
         (s_cache (c_b x) = None \/ s_regs (c_b x) <> [] -> k = List.length (circuit_bits x))).
Proof. exact (fun P ptrue peqb v c x n l R S => add_cregister_cases P v c x n l (proj1 (IB_reach P ptrue peqb v R S)) S). Qed.
Print Assumptions C23_add_cregister.

(** Full statement: the registers are as before.  False: the register made for the new qubit stays. *)
Theorem C23_add_qubit_refuted :
  exists v c x x', zreaches (own_methods Z) v /\ small Z v /\ nth_error (w_circ v) c = Some x /\
    snd (add_qubit c (AItem 0) (LStr "b") v) = Err ValueError /\
    nth_error (w_circ (fst (add_qubit c (AItem 0) (LStr "b") v))) c = Some x' /\
    map fst (s_regs (c_q x)) = [LStr "qreg0"] /\ map fst (s_regs (c_q x')) = [LStr "qreg0"; LStr "b"].
Proof.
  exists (fst (zrun (calls [CNew _ false (Some 1) None]) (zstart []))), 0. eexists _, _.
  split; [|split; [vm_compute; auto|split; [vm_compute; reflexivity|split; [vm_compute; reflexivity|split; [vm_compute; reflexivity|vm_compute; auto]]]]].
  apply (reaches_run Z ztrue Z.eqb (fun _ => ownb Z)); [|reflexivity]. intros w x H. destruct x; try discriminate H; exact I.
Qed.
Print Assumptions C23_add_qubit_refuted.

Example demo_add : snd (add_qubit 0 (AItem 0) LNone demo_end) = Err ValueError /\ snd (add_qubit 0 ABad LNone demo_end) = Err TypeError /\
  snd (add_qubit 0 ANone (LStr "anc") demo_end) = Ok tt /\ snd (add_bit 0 (AItem 3) LNone demo_end) = Err ValueError /\
  snd (add_bit 0 ANone LNone demo_end) = Ok tt /\
  snd (add_qubit 0 ANone (LStr "anc") (fst (qreg_freeze 0 (LStr "anc") demo_end))) = Err RegisterError /\
  snd (add_qregister 0 3 (LStr "anc") demo_end) = Err ValueError /\ snd (add_cregister 0 3 (LStr "new") demo_end) = Ok tt.
Proof. vm_compute. auto 10. Qed.
Example demo_clear_at : exists x, nth_error (w_circ demo_end) 0 = Some x /\ clear_at Z demo_end x.
Proof. eexists. split; [vm_compute; reflexivity|]. apply clearb_at_sound. vm_compute. reflexivity. Qed.

(** ** C24: add_bit adds the given bit *)

Theorem C24_add_bit_partial :
  forall P ptrue peqb (v : world P) c x b l,
    reaches P ptrue peqb (classical_ok P ptrue peqb) v -> small P v -> nth_error (w_circ v) c = Some x ->
    clear_at P v x -> b < List.length (w_bit v) -> ~ In (IBit b) (circuit_bits x) ->
    let d := target (default_clabel x) (s_regs (c_b x)) l in
    frozen_at (s_regs (c_b x)) d = false -> bit_value P v b <> Some false ->
    (bit_value P v b = Some true -> List.length (contents_at (s_regs (c_b x)) d) <> 1) ->
    exists w' x' r', add_bit c (AItem b) l v = (w', Ok tt) /\ nth_error (w_circ w') c = Some x' /\
      dget label_eqb d (s_regs (c_b x')) = Some r' /\
      contents r' = contents_at (s_regs (c_b x)) d ++ [IBit b].
Proof. exact C24_main. Qed.
Print Assumptions C24_add_bit_partial.

(** Full statement: for every bit.  False for a bit that holds 0: the circuit gets another bit. *)
Theorem C24_zero_bit_refuted :
  exists v x', zreaches (classical_ok Z ztrue Z.eqb) v /\ small Z v /\ bit_value Z v 0 = Some false /\
    snd (add_bit 0 (AItem 0) LNone v) = Ok tt /\ nth_error (w_circ (fst (add_bit 0 (AItem 0) LNone v))) 0 = Some x' /\
    circuit_bits x' = [IBit 1].
Proof.
  exists (fst (zrun (calls [CNew _ false None None; CNewBit _ (LStr "a"); CBitSet _ 0 false false]) (zstart []))). eexists.
  split; [|split; [vm_compute; auto|split; [vm_compute; reflexivity|split; [vm_compute; reflexivity|split; [vm_compute; reflexivity|vm_compute; auto]]]]].
  apply (reaches_run Z ztrue Z.eqb (classicalb Z ztrue Z.eqb)); [apply classicalb_sound|]. vm_compute. reflexivity.
Qed.
Print Assumptions C24_zero_bit_refuted.

(** And for one that holds 1 and comes second. *)
Theorem C24_second_bit_refuted :
  exists v x', zreaches (classical_ok Z ztrue Z.eqb) v /\ small Z v /\ bit_value Z v 1 = Some true /\
    snd (add_bit 0 (AItem 1) LNone v) = Ok tt /\ nth_error (w_circ (fst (add_bit 0 (AItem 1) LNone v))) 0 = Some x' /\
    circuit_bits x' = [IBit 0; IInt 1].
Proof.
  exists (fst (zrun (calls [CNew _ false None (Some 1); CNewBit _ (LStr "a"); CBitSet _ 1 true false]) (zstart []))). eexists.
  split; [|split; [vm_compute; auto|split; [vm_compute; reflexivity|split; [vm_compute; reflexivity|split; [vm_compute; reflexivity|vm_compute; auto]]]]].
  apply (reaches_run Z ztrue Z.eqb (classicalb Z ztrue Z.eqb)); [apply classicalb_sound|]. vm_compute. reflexivity.
Qed.
Print Assumptions C24_second_bit_refuted.

(** ** C26: default names *)

Theorem C26_default_qregister_partial :
  forall P ptrue peqb (v : world P) c x n,
    reaches P ptrue peqb (fun w y => own_methods P w y /\ own_labels y) v -> small P v ->
    ssize_ok (zn (List.length (w_qubit v) + n) + 1) = true -> nth_error (w_circ v) c = Some x ->
    exists w' x' r, add_qregister c n LNone v = (w', Ok tt) /\ nth_error (w_circ w') c = Some x' /\
      s_regs (c_q x') = s_regs (c_q x) ++ [(default_qlabel x, r)] /\ List.length (contents r) = n.
Proof. exact C26_q. Qed.
Print Assumptions C26_default_qregister_partial.

Theorem C26_default_cregister_partial :
  forall P ptrue peqb (v : world P) c x n,
    reaches P ptrue peqb (fun w y => classical_ok P ptrue peqb w y /\ own_labels y) v -> small P v ->
    ssize_ok (zn (List.length (w_bit v) + n) + 1) = true -> nth_error (w_circ v) c = Some x ->
    exists w' x' r, add_cregister c n LNone v = (w', Ok tt) /\ nth_error (w_circ w') c = Some x' /\
      s_regs (c_b x') = s_regs (c_b x) ++ [(default_clabel x, r)] /\ List.length (contents r) = n.
Proof. exact C26_b. Qed.
Print Assumptions C26_default_cregister_partial.

(** Full statement: always.  False when the user took the next default name. *)
Theorem C26_taken_refuted :
  exists v, zreaches (own_methods Z) v /\ small Z v /\ snd (add_qregister 0 1 LNone v) = Err ValueError.
Proof.
  exists (fst (zrun (calls [CNew _ false None None; CAddQReg _ 0 1 (LStr "qreg1")]) (zstart []))).
  split; [|split; [vm_compute; auto|reflexivity]].
  apply (reaches_run Z ztrue Z.eqb (fun _ => ownb Z)); [|reflexivity]. intros w x H. destruct x; try discriminate H; exact I.
Qed.
Print Assumptions C26_taken_refuted.
Theorem C26_taken_bits_refuted :
  exists v, zreaches (classical_ok Z ztrue Z.eqb) v /\ small Z v /\ snd (add_cregister 0 1 LNone v) = Err ValueError.
Proof.
  exists (fst (zrun (calls [CNew _ false None None; CAddCReg _ 0 1 (LStr "creg1")]) (zstart []))).
  split; [|split; [vm_compute; auto|reflexivity]].
  apply (reaches_run Z ztrue Z.eqb (classicalb Z ztrue Z.eqb)); [apply classicalb_sound|]. vm_compute. reflexivity.
Qed.
Print Assumptions C26_taken_bits_refuted.

Example demo_labels : zreaches (fun w y => own_methods Z w y /\ own_labels y) (fst (zrun (calls
  [CNew _ false (Some 2) None; CAddQReg _ 0 1 (LStr "anc"); CAddQReg _ 0 1 LNone]) (zstart []))).
Proof.
  apply (reaches_run Z ztrue Z.eqb (fun _ y => match y with
    | CNew _ _ _ _ => true | CAddQReg _ _ _ LNone => true
    | CAddQReg _ _ _ (LStr (String "a"%char _)) => true | _ => false end)); [|reflexivity].
  intros w y H. destruct y; try discriminate H; [split; simpl; auto|].
  split; [exact I|]. intros s ->. discriminate H.
Qed.

(** Property C67: what circuits look like to the simulator, and that they simulate; and two more parts of
    C57: the numbers of qubits and of parameters of every operation object. *)
From Coq Require Import List ZArith NArith String Bool Arith Lia Reals.
From Verif Require Import Py CRing Cplx SimModel SimSpec SimReal GateModel StateModel StateSpec RegisterModel
  WorldModel WorldSpec WorldSpec4 WorldCheck WorldArity WorldArity2 LinkModel LinkSpec LinkProofs.
Import ListNotations.
Local Open Scope nat_scope.
Local Open Scope string_scope.

(** ** C57: whatever a program does, in every state it passes through, every operation of a class that knows
    its number of qubits has that many qubits, if it has qubits. *)
Theorem C57_operations_partial :
  forall P ptrue peqb ks p (v : world P) k x n o y qs,
    visits P ptrue peqb p (start P ks) v -> nth_error ks k = Some x -> k_numq x = Some n ->
    (k_kind x = KCtrl \/ k_kind x = KParCtrl -> n <> 0) ->
    nth_error (w_op v) o = Some y -> o_cls y = k -> o_qubits y = Some qs -> List.length qs = n.
Proof. exact arity_kept. Qed.
Print Assumptions C57_operations_partial.

(** Every operation has as many parameters as its class asks for; none if its class has no parameters or its
    constructor failed.  Classes keep their name and kind. *)
Theorem C57_parameters :
  forall P ptrue peqb ks p (v : world P) k x,
    visits P ptrue peqb p (start P ks) v -> nth_error ks k = Some x ->
    (exists x', nth_error (w_cls v) k = Some x' /\ k_name x' = k_name x /\ k_kind x' = k_kind x) /\
    forall o y, nth_error (w_op v) o = Some y -> o_cls y = k ->
      o_params y = [] \/ has_params (k_kind x) = true /\ k_nparams x = Some (List.length (o_params y)).
Proof. exact parameters_kept. Qed.
Print Assumptions C57_parameters.

(** ** C67: a circuit with 1 to 30 qubits, built in any way with the classes of the library (and other classes
    defined by the user, as long as they are not in this circuit), whose operations are [ready]: the simulator
    sees the circuit's qubits in order and, one for one, the gates the names of its operations stand for;
    the simulation succeeds and leaves a normalised state in the circuit. *)
Theorem C67_simulates_partial :
  forall ptrue peqb extra p (v : world R) c x (rnd : nat -> R) (st : cst),
    executes R ptrue peqb (own_ok R) p (start R (library_classes ++ extra)%list) ->
    visits R ptrue peqb p (start R (library_classes ++ extra)%list) v -> small R v ->
    nth_error (w_circ v) c = Some x -> (forall o y, In o (c_ops x) -> nth_error (w_op v) o = Some y -> ready v x o y) ->
    1 <= List.length (circuit_qubits x) <= 30 -> (forall k, uniform (rnd k)) ->
    exists s m a, seen v c = Some s /\ circuit_qubits x = map IQubit (sc_qubits Ccring s) /\
      Forall2 (shown v) (c_ops x) (sc_ops Ccring s) /\ wf_circ s /\ unitary_circ s /\
      simulate_set rnd s false false (memory v) st
        = (m, mkCst (Some (mkArr [2 ^ N.of_nat (List.length (circuit_qubits x))]%N a)) None, Ok tt) /\
      normalised (N.of_nat (List.length (circuit_qubits x))) a.
Proof. exact link_simulates. Qed.
Print Assumptions C67_simulates_partial.

(** A circuit with a Hadamard, CX, RX and a measurement. *)
Definition rtrue (_ : R) : bool := true.
Definition req (_ _ : R) : bool := true.
Definition bell (a : R) : prog R :=
  Seq (calls [CNew _ false (Some 2) (Some 1)])
      (With 0 (calls [CConstruct 4 None (AQ (Some [IQubit 0])); CConstruct 11 None (ACT (Some [IQubit 0]) (Some [IQubit 1]));
                      CConstruct 7 (Some [PNum a]) (AQ (Some [IQubit 1])); CConstruct 22 None (AQ (Some [IQubit 1])); CStore _ 3 [IBit 0]])).
Definition own_okr (w : world R) (x : call R) : bool :=
  match x with CQRegAdd _ _ _ _ | CCRegAdd _ _ _ _ | CReset _ _ false | CSetQubits _ _ _ => false | _ => true end.
Lemma own_okr_sound w x : own_okr w x = true -> own_ok R w x.
Proof. unfold own_ok. destruct x; cbn; try discriminate; try (destruct keep; try discriminate); auto. Qed.
Definition bell_end (a : R) : world R := fst (run rtrue req (bell a) (start R library_classes)).
Definition bell_world (a : R) : world R := ltac:(let w := eval vm_compute in (bell_end a) in exact w).
Lemma bell_eq a : bell_end a = bell_world a.
Proof. vm_compute. reflexivity. Qed.
Ltac is_ready := constructor; cbn;
  [repeat constructor
  |eexists; split; [reflexivity|]; intros k [= <-]; split; [intros _; repeat (apply NoDup_cons; [cbn; intuition discriminate|]); apply NoDup_nil|intros [H|H]; try discriminate H; reflexivity]
  |intros k [= <-]; cbn; try discriminate; (intros _; split; [discriminate|intros _; repeat constructor; eexists; reflexivity])
  |intros l; try discriminate; intros [= <-]; repeat constructor; eexists; reflexivity
  |intros l; discriminate].
Example C67_case (a : R) :
  executes R rtrue req (own_ok R) (bell a) (start R (library_classes ++ [])%list) /\
  visits R rtrue req (bell a) (start R (library_classes ++ [])%list) (bell_end a) /\ small R (bell_end a) /\
  snd (run rtrue req (bell a) (start R library_classes)) = Ok tt /\
  exists x, nth_error (w_circ (bell_end a)) 0 = Some x /\ c_ops x = [0; 1; 2; 3] /\ List.length (circuit_qubits x) = 2 /\
    (forall o y, In o (c_ops x) -> nth_error (w_op (bell_end a)) o = Some y -> ready (bell_end a) x o y) /\
    seen (bell_end a) 0 = Some (mkScirc Ccring [0; 1]
      [mkSop Ccring (gate_kind (GOne GHadamard)) (Some [0]) []; mkSop Ccring (gate_kind (GC GX)) (Some [0; 1]) [];
       mkSop Ccring (gate_kind (GOne (GRX a))) (Some [1]) []; mkSop Ccring (KMeasure Ccring 3 (Some [0])) (Some [1]) []]).
Proof.
  rewrite app_nil_r. split; [|split; [|split; [|split; [|eexists; split; [|split; [|split; [|split]]]]]]].
  - apply (executesb_sound R rtrue req own_okr); [exact own_okr_sound|]. vm_compute. reflexivity.
  - right. left. reflexivity.
  - split; vm_compute; reflexivity.
  - vm_compute. reflexivity.
  - rewrite bell_eq. reflexivity.
  - reflexivity.
  - reflexivity.
  - rewrite bell_eq. intros o y Ho Ey. cbn in Ho. destruct Ho as [<-|[<-|[<-|[<-|[]]]]]; cbn in Ey; injection Ey as <-; is_ready.
  - rewrite bell_eq. reflexivity.
Qed.

(** Without qubits: [circuit.append(X())] is accepted (circuit.py:196), and simulating raises TypeError. *)
Definition bare : prog R := calls [CNew _ false (Some 1) None; CConstruct 1 None (AQ None); CAppend _ 0 0].
Theorem C67_no_qubits_refuted :
  exists v x s, v = fst (run rtrue req bare (start R library_classes)) /\ snd (run rtrue req bare (start R library_classes)) = Ok tt /\
    executes R rtrue req (own_ok R) bare (start R library_classes) /\ nth_error (w_circ v) 0 = Some x /\ c_ops x = [0] /\
    seen v 0 = Some s /\ forall rnd m st, simulate_set rnd s false false m st = (m, st, Err TypeError).
Proof.
  eexists _, _, _. split; [reflexivity|]. split; [vm_compute; reflexivity|].
  split; [apply (executesb_sound R rtrue req own_okr); [exact own_okr_sound|]; vm_compute; reflexivity|].
  split; [vm_compute; reflexivity|]. split; [reflexivity|]. split; [reflexivity|]. reflexivity.
Qed.
Print Assumptions C67_no_qubits_refuted.

(** With three qubits: CZ(q0, q1, q2) is accepted (C57_controlled_refuted), and simulated as CZ(q0, q1). *)
Definition wide (l : list item) : prog R := Seq (calls [CNew _ false (Some 3) None]) (With 0 (calls [CConstruct 13 None (AQ (Some l))])).
Theorem C67_three_qubits_refuted :
  exists v s, v = fst (run rtrue req (wide [IQubit 0; IQubit 1; IQubit 2]) (start R library_classes)) /\
    executes R rtrue req (own_ok R) (wide [IQubit 0; IQubit 1; IQubit 2]) (start R library_classes) /\ small R v /\
    seen v 0 = Some s /\ ~ wf_circ s /\
    exists s', seen (fst (run rtrue req (wide [IQubit 0; IQubit 1]) (start R library_classes))) 0 = Some s' /\
      forall rnd m, simulate_C rnd s false false m = simulate_C rnd s' false false m.
Proof.
  eexists _, _. split; [reflexivity|].
  split; [apply (executesb_sound R rtrue req own_okr); [exact own_okr_sound|]; vm_compute; reflexivity|].
  split; [split; vm_compute; reflexivity|]. split; [reflexivity|]. split; [|eexists; split; [reflexivity|reflexivity]].
  intros (_ & _ & H). destruct (H _ (or_introl eq_refl)) as (qs & Hq & _ & _ & Ha & _). cbn in Hq. injection Hq as <-.
  discriminate (Ha 2 eq_refl).
Qed.
Print Assumptions C67_three_qubits_refuted.

(** Property C75: build_unitary on circuits built with the library. *)
From Coq Require Import List ZArith NArith String Bool Arith Lia Reals Lra.
From Verif Require Import Py CRing Cplx KernelSpec SimModel SimSpec SimReal UnitaryModel UnitarySpec GateModel RegisterModel
  WorldModel WorldSpec WorldSpec2 WorldSpec3 WorldSpec4 WorldCheck WorldStep LinkModel LinkSpec LinkProofs PropsLink CallSpec CallProofs3 CallSpec2 CallWorld PropsCall
  MatrixModel MatrixSpec MatrixProofs.
Import ListNotations.
Local Open Scope nat_scope.
Local Open Scope string_scope.

(** ** Circuits of one-qubit gates and controlled gates without parameters: build_unitary gives the operator of the
    circuit as the simulator sees it, without its conditions. *)
Theorem C75_matrix_partial :
  forall ptrue peqb extra p (v : world R) c x,
    executes R ptrue peqb (own_ok R) p (start R (library_classes ++ extra)%list) ->
    visits R ptrue peqb p (start R (library_classes ++ extra)%list) v -> small R v ->
    nth_error (w_circ v) c = Some x -> (forall o y, In o (c_ops x) -> nth_error (w_op v) o = Some y -> ready v x o y) -> circuit_qubits x <> [] ->
    (forall o, In o (c_ops x) -> exists n, of_name v o n /\ handled n) ->
    exists st M, seen v c = Some st /\ circuit_qubits x = map IQubit (sc_qubits Ccring st) /\ Forall2 (shown v) (c_ops x) (sc_ops Ccring st) /\
      measurement_free st /\ unitary_of v c = Ok M /\ operator false (unconditioned st) M /\ unitary (2 ^ SimModel.num_qubits Ccring st) M.
Proof. exact matrix_operator. Qed.
Print Assumptions C75_matrix_partial.

(** Without conditions its first column is the state that simulation gives. *)
Theorem C75_simulated_partial :
  forall ptrue peqb extra p (v : world R) c x (rnd : nat -> R) m,
    executes R ptrue peqb (own_ok R) p (start R (library_classes ++ extra)%list) ->
    visits R ptrue peqb p (start R (library_classes ++ extra)%list) v -> small R v ->
    nth_error (w_circ v) c = Some x -> (forall o y, In o (c_ops x) -> nth_error (w_op v) o = Some y -> ready v x o y /\ (o_cond y = None \/ o_cond y = Some [])) ->
    1 <= List.length (circuit_qubits x) <= 30 ->
    (forall o, In o (c_ops x) -> exists n, of_name v o n /\ handled n) ->
    exists st M u, seen v c = Some st /\ unitary_of v c = Ok M /\ simulate_C rnd st false false m = (m, Ok (SVec Ccring u)) /\
      forall i, (i < 2 ^ N.of_nat (List.length (circuit_qubits x)))%N -> u i = M i 0%N.
Proof. exact matrix_simulates. Qed.
Print Assumptions C75_simulated_partial.

(** Calling the circuit on qubits of the circuit that records changes the simulated state by this matrix on these
    qubits. *)
Theorem C75_called_partial :
  forall ptrue peqb extra p (v : world R) t x d xd sd ids ba (rnd : nat -> R),
    executes R ptrue peqb (own_ok R) p (start R (library_classes ++ extra)%list) ->
    visits R ptrue peqb p (start R (library_classes ++ extra)%list) v -> small R v ->
    nth_error (w_circ v) t = Some x -> (forall o y, In o (c_ops x) -> nth_error (w_op v) o = Some y -> ready v x o y) -> circuit_qubits x <> [] ->
    (forall o, In o (c_ops x) -> exists n, of_name v o n /\ handled n) ->
    nth_error (w_circ v) d = Some xd -> recording R v = Some d -> seen v d = Some sd -> List.length (circuit_qubits xd) <= 30 ->
    NoDup ids -> (forall q, In q ids -> In (IQubit q) (circuit_qubits xd)) ->
    snd (do_call ptrue peqb (CCall R t (map IQubit ids) ba) v) = Ok tt ->
    exists M ts sd', unitary_of v t = Ok M /\ at_positions sd ids ts /\
      seen (fst (do_call ptrue peqb (CCall R t (map IQubit ids) ba) v)) d = Some sd' /\
      continues (fun c => simulate_C rnd c false false) sd sd' (acts_on false (SimModel.num_qubits Ccring sd) M ts).
Proof. exact matrix_called. Qed.
Print Assumptions C75_called_partial.

Example C75_matrix_case (b : R) :
  exists x, nth_error (w_circ (calling b)) 0 = Some x /\ circuit_qubits x <> [] /\ List.length (circuit_qubits x) = 2 /\ c_ops x = [0; 1] /\
    (forall o y, In o (c_ops x) -> nth_error (w_op (calling b)) o = Some y -> ready (calling b) x o y /\ o_cond y = None) /\
    (forall o, In o (c_ops x) -> exists n, of_name (calling b) o n /\ handled n).
Proof.
  eexists. split; [reflexivity|]. split; [discriminate|]. split; [reflexivity|]. split; [reflexivity|]. split.
  - intros o y Ho Ey. cbn in Ho. destruct Ho as [<-|[<-|[]]]; cbn in Ey; injection Ey as <-; (split; [is_ready|reflexivity]).
  - intros o Ho. cbn in Ho. destruct Ho as [<-|[<-|[]]].
    + exists "Hadamard". split; [eexists _, _; repeat (split; [reflexivity|]); reflexivity|]. left. eexists _, _. constructor.
    + exists "CX". split; [eexists _, _; repeat (split; [reflexivity|]); reflexivity|]. right. exists "X". eexists. split; [reflexivity|constructor].
Qed.
(** The rest of what [C75_called_partial] asks for is [calling_reached] and [C74_called_case]. *)

(** ** An operation made from a circuit with one qubit (create_operation, operations/base.py:79-155) has this matrix;
    applied to a qubit it is simulated as the circuit called there is. *)
Theorem C75_custom_partial :
  forall ptrue peqb extra p (v : world R) t x d xd sd q ba (rnd : nat -> R),
    executes R ptrue peqb (own_ok R) p (start R (library_classes ++ extra)%list) ->
    visits R ptrue peqb p (start R (library_classes ++ extra)%list) v -> small R v ->
    nth_error (w_circ v) t = Some x -> (forall o y, In o (c_ops x) -> nth_error (w_op v) o = Some y -> ready v x o y) -> List.length (circuit_qubits x) = 1 ->
    (forall o, In o (c_ops x) -> exists n, of_name v o n /\ handled n) ->
    nth_error (w_circ v) d = Some xd -> recording R v = Some d -> seen v d = Some sd -> List.length (circuit_qubits xd) <= 30 ->
    In (IQubit q) (circuit_qubits xd) ->
    snd (do_call ptrue peqb (CCall R t [IQubit q] ba) v) = Ok tt ->
    exists M sd', unitary_of v t = Ok M /\ seen (fst (do_call ptrue peqb (CCall R t [IQubit q] ba) v)) d = Some sd' /\
      continues (fun c => simulate_C rnd c false false) sd' (custom_after sd M q) (fun u => u).
Proof. exact matrix_custom. Qed.
Print Assumptions C75_custom_partial.

(** Circuit 0 has Hadamard and RX on one qubit; circuit 1 with two qubits records. *)
Definition turning (b : R) : prog R :=
  Seq (calls [CNew _ false (Some 1) None; CNew _ false (Some 2) None])
      (With 0 (calls [CConstruct 4 None (AQ (Some [IQubit 0])); CConstruct 7 (Some [PNum b]) (AQ (Some [IQubit 0]))])).
Definition turned (b : R) : world R := ltac:(let w := eval vm_compute in (fst (run rtrue req (turning b) (start R library_classes))) in exact w).
Definition turned_in (b : R) : world R := ltac:(let w := eval vm_compute in (fst ((let! a := context 1 in ctx_enter a) (turned b))) in exact w).
Lemma turned_reached b : executes R rtrue req (own_ok R) (Seq (turning b) (With 1 Skip)) (start R (library_classes ++ [])%list) /\
  visits R rtrue req (Seq (turning b) (With 1 Skip)) (start R (library_classes ++ [])%list) (turned_in b) /\ small R (turned_in b).
Proof.
  rewrite app_nil_r. split; [|split].
  - apply (executesb_sound R rtrue req own_okr); [exact own_okr_sound|]. vm_compute. reflexivity.
  - right. right. right.
    assert (E0 : run rtrue req (turning b) (start R library_classes) = (turned b, Ok tt)) by (vm_compute; reflexivity).
    assert (E1 : (let! a := context 1 in ctx_enter a) (turned b) = (turned_in b, Ok tt)) by (vm_compute; reflexivity).
    rewrite E0. right. right. rewrite E1. left. reflexivity.
  - split; vm_compute; reflexivity.
Qed.
Example C75_custom_case (b : R) :
  exists x xd, nth_error (w_circ (turned_in b)) 0 = Some x /\ nth_error (w_circ (turned_in b)) 1 = Some xd /\ recording R (turned_in b) = Some 1 /\
    (forall o y, In o (c_ops x) -> nth_error (w_op (turned_in b)) o = Some y -> ready (turned_in b) x o y) /\ List.length (circuit_qubits x) = 1 /\
    c_ops x = [0; 1] /\ (forall o, In o (c_ops x) -> exists n, of_name (turned_in b) o n /\ handled n) /\
    In (IQubit 2) (circuit_qubits xd) /\ seen (turned_in b) 1 = Some (mkScirc Ccring [1; 2] []) /\
    snd (do_call rtrue req (CCall R 0 [IQubit 2] BNone) (turned_in b)) = Ok tt.
Proof.
  eexists _, _. split; [reflexivity|]. split; [reflexivity|]. split; [reflexivity|]. split.
  { intros o y Ho Ey. cbn in Ho. destruct Ho as [<-|[<-|[]]]; cbn in Ey; injection Ey as <-; is_ready. }
  split; [reflexivity|]. split; [reflexivity|]. split.
  { intros o Ho. cbn in Ho. destruct Ho as [<-|[<-|[]]].
    - exists "Hadamard". split; [eexists _, _; repeat (split; [reflexivity|]); reflexivity|]. left. eexists _, _. constructor.
    - exists "RX". split; [eexists _, _; repeat (split; [reflexivity|]); reflexivity|]. left. exists [b]. eexists. constructor. }
  split; [cbn; auto|]. split; [reflexivity|]. vm_compute. reflexivity.
Qed.

(** ** All other circuits are refused: the first operation with more than one qubit that is not controlled, the first
    measurement, the first controlled gate with a parameter, the first parameter without a number. *)
Theorem C75_refused :
  forall ptrue peqb extra p (v : world R),
    executes R ptrue peqb (own_ok R) p (start R (library_classes ++ extra)%list) ->
    visits R ptrue peqb p (start R (library_classes ++ extra)%list) v -> small R v ->
    forall c x, nth_error (w_circ v) c = Some x -> circuit_qubits x <> [] ->
    forall pre o post n e, c_ops x = (pre ++ o :: post)%list ->
      (forall a y, In a (pre ++ [o]) -> nth_error (w_op v) a = Some y -> ready v x a y /\ o_qubits y <> Some []) ->
      (forall a, In a pre -> exists m, of_name v a m /\ handled m) -> of_name v o n -> refused n e ->
      unitary_of v c = Err e.
Proof. exact matrix_refused. Qed.
Print Assumptions C75_refused.
Theorem C75_variable :
  forall ptrue peqb extra p (v : world R),
    executes R ptrue peqb (own_ok R) p (start R (library_classes ++ extra)%list) ->
    visits R ptrue peqb p (start R (library_classes ++ extra)%list) v -> small R v ->
    forall c x, nth_error (w_circ v) c = Some x -> circuit_qubits x <> [] ->
    forall pre o post y k l, c_ops x = (pre ++ o :: post)%list ->
      (forall a z, In a pre -> nth_error (w_op v) a = Some z -> ready v x a z) -> (forall a, In a pre -> exists m, of_name v a m /\ handled m) ->
      nth_error (w_op v) o = Some y -> nth_error (w_cls v) (o_cls y) = Some k -> handled (k_name k) -> k_kind k = KParam -> o_cls y < List.length library ->
      o_qubits y = Some l -> (exists n, In (PVar n) (o_params y)) -> unitary_of v c = Err TypeError.
Proof. exact matrix_variable. Qed.
Print Assumptions C75_variable.

(** The names of the library's classes: each of them is handled or refused. *)
Theorem C75_names : forall k x f, nth_error library k = Some (x, f) ->
  (handled (k_name x) /\ forall e, ~ refused (k_name x) e) \/ (~ handled (k_name x) /\ exists e, refused (k_name x) e).
Proof. exact names_decided. Qed.
Print Assumptions C75_names.

(** The measurement after three gates in [bell] (C67_case: reached and ready). *)
Example C75_refused_case (a : R) :
  exists x, nth_error (w_circ (bell_end a)) 0 = Some x /\ c_ops x = ([0; 1; 2] ++ 3 :: [])%list /\
    (forall o, In o [0; 1; 2] -> exists n, of_name (bell_end a) o n /\ handled n) /\ of_name (bell_end a) 3 "Measurement" /\ refused "Measurement" TypeError.
Proof.
  rewrite bell_eq. eexists. split; [reflexivity|]. split; [reflexivity|]. split.
  { intros o Ho. destruct Ho as [<-|[<-|[<-|[]]]].
    - exists "Hadamard". split; [eexists _, _; repeat (split; [reflexivity|]); reflexivity|]. left. eexists _, _. constructor.
    - exists "CX". split; [eexists _, _; repeat (split; [reflexivity|]); reflexivity|]. right. exists "X". eexists. split; [reflexivity|constructor].
    - exists "RX". split; [eexists _, _; repeat (split; [reflexivity|]); reflexivity|]. left. exists [a]. eexists. constructor. }
  split; [eexists _, _; repeat (split; [reflexivity|]); reflexivity|constructor].
Qed.
(** The variable of circuit 2 of [calling]. *)
Example C75_variable_case (b : R) :
  exists x y k, nth_error (w_circ (calling b)) 2 = Some x /\ c_ops x = ([] ++ 2 :: [3; 4])%list /\ nth_error (w_op (calling b)) 2 = Some y /\
    nth_error (w_cls (calling b)) (o_cls y) = Some k /\ handled (k_name k) /\ k_kind k = KParam /\ o_qubits y = Some [IQubit 5] /\ In (PVar 0) (o_params y).
Proof.
  eexists _, _, _. do 4 (split; [reflexivity|]). split; [left; exists [b]; eexists; constructor|]. split; [reflexivity|]. split; [reflexivity|]. now left.
Qed.

(** ** What the hypotheses exclude *)
(** The conditions of operations: the circuit of [C74_condition_refuted] leaves |0> alone while its bit is 0; its
    matrix is that of X. *)
Theorem C75_condition_refuted :
  exists p v st M, executes R rtrue req (own_ok R) p (start R library_classes) /\ visits R rtrue req p (start R library_classes) v /\ small R v /\
    seen v 0 = Some st /\ unitary_of v 0 = Ok M /\
    forall rnd, exists m u, simulate_C rnd st false false (memory v) = (m, Ok (SVec Ccring u)) /\ u 0%N = RtoC 1 /\ M 0%N 0%N = RtoC 0.
Proof.
  exists gated, gated_end, (flip [0] 0). eexists.
  split; [apply (executesb_sound R rtrue req own_okr); [exact own_okr_sound|]; vm_compute; reflexivity|].
  split; [right; left; vm_compute; reflexivity|].
  split; [split; vm_compute; reflexivity|]. split; [reflexivity|]. split; [reflexivity|].
  intros rnd. eexists _, _. split; [reflexivity|]. split; [reflexivity|].
  cbv -[IZR Rmult Rplus Rminus Ropp]. f_equal; lra.
Qed.
Print Assumptions C75_condition_refuted.

(** Setting the qubits of a controlled operation: its control and target stay what they were, so build_unitary goes
    on with the old qubits while the simulator uses the new ones. *)
Definition switching : prog R :=
  Seq (calls [CNew _ false (Some 2) None])
  (Seq (With 0 (calls [CConstruct 11 None (AQ (Some [IQubit 0; IQubit 1]))])) (calls [CSetQubits _ 0 [IQubit 1; IQubit 0]])).
Definition switched : world R := ltac:(let w := eval vm_compute in (fst (run rtrue req switching (start R library_classes))) in exact w).
Definition reg_okr (w : world R) (x : call R) : bool := match x with CQRegAdd _ _ _ _ | CCRegAdd _ _ _ _ | CReset _ _ false => false | _ => true end.
Lemma reg_okr_sound w x : reg_okr w x = true -> own_methods R w x /\ keeps_registers R x.
Proof. destruct x; cbn; try discriminate; try (destruct keep; try discriminate); auto. Qed.
Definition cnot (a b : nat) : scirc Ccring := mkScirc Ccring [0; 1] [one (GC GX) [a; b]].
Theorem C75_set_qubits_refuted :
  exists p v st M, executes R rtrue req (fun w y => own_methods R w y /\ keeps_registers R y) p (start R library_classes) /\
    visits R rtrue req p (start R library_classes) v /\ small R v /\ wf_circ st /\ unconditional st /\
    seen v 0 = Some st /\ unitary_of v 0 = Ok M /\ ~ operator false st M.
Proof.
  assert (W : forall a b, (a = 0 /\ b = 1) \/ (a = 1 /\ b = 0) -> wf_circ (cnot a b)).
  { intros a b H. split; [repeat (constructor; [cbn; intuition discriminate|]); constructor|]. split; [discriminate|].
    intros o [<-|[]]. exists [a; b]. split; [reflexivity|]. split; [intros q Hq; cbn in *; intuition subst; auto|].
    split; [intros _; repeat (constructor; [cbn; intuition congruence|]); constructor|]. split; [intros k [= <-]; reflexivity|cbn; auto]. }
  exists switching, switched, (cnot 1 0). eexists.
  split; [apply (executesb_sound R rtrue req reg_okr); [exact reg_okr_sound|]; vm_compute; reflexivity|].
  split; [right; left; vm_compute; reflexivity|]. split; [split; vm_compute; reflexivity|]. split; [apply W; auto|].
  split; [intros o [<-|[]]; reflexivity|]. split; [reflexivity|]. split; [reflexivity|].
  intros H.
  destruct (C74_matrix_partial Ccring (cnot 1 0) [UControlled Ccring 2 (Some (matrix1 GX)) [1] [0]]) as (M' & E' & H').
  { apply W; auto. }
  { repeat constructor. }
  { intros o [<-|[]]; reflexivity. }
  injection E' as <-.
  assert (U := operator_unique Ccring false (cnot 1 0) (W 1 0 (or_intror (conj eq_refl eq_refl))) ltac:(intros o [<-|[]]; reflexivity)
    ltac:(intros o [<-|[]]; reflexivity) _ _ 2%N 2%N H H' ltac:(reflexivity) ltac:(reflexivity)).
  cbv -[IZR Rmult Rplus Rminus Ropp] in U. injection U as U1 U2. lra.
Qed.
Print Assumptions C75_set_qubits_refuted.

(** Property C72: loading a QIR module (qir/loader.py) into circuits built with the library. *)
From Coq Require Import List ZArith NArith String Bool Arith Reals Lia Lra.
From Verif Require Import Py CRing Cplx KernelSpec SimModel SimSpec SimReal SimProofs2 SampleSpec StateModel QirModel QirSpec QirSemSpec QirMeantSpec QirSemProofs LinkModel RegisterModel
  WorldModel WorldSpec WorldSpec4 WorldCheck LinkSpec LinkProofs ExportModel ExportSpec ExportProofs2 PropsExport PropsLink PropsQelib QirCircSpec PropsQirSem
  LoadModel LoadSpec LoadMeanSpec LoadProofs3 LoadProofs9 LoadMean LoadMean2 LoadRot.
Import ListNotations.
Local Open Scope nat_scope.
Local Open Scope string_scope.

(** ** Every module asks for something, so that the theorems below are about all modules. *)
Theorem C72_every_module :
  forall P ptrue peqb more (w : world P) ks, ended P ptrue peqb more w -> exists gs mq mb e, asks P w ks gs mq mb e.
Proof. exact asks_total. Qed.
Print Assumptions C72_every_module.

(** ** Loading into a new circuit, in any world that programs can get to and in which no context is active.  The outcome
    is the one asked for; the circuit holds the gates of the calls in order and at the end one measurement of all measured
    qubits; its qubits are as many as the gates need.  The world that results is one that programs can get to. *)
Theorem C72_new_partial :
  forall P ptrue peqb more (w : world P) fs gs mq mb e N,
    ended P ptrue peqb more w -> w_active w = None -> w_exit w = [] ->
    asks P w (calls_read P fs) gs mq mb e -> 0 < N -> Forall (below P N) (calls_read P fs) ->
    ssize_ok (zn (List.length (w_qubit w) + N + N) + 1) = true -> ssize_ok (zn (List.length (w_bit w) + N) + 1) = true ->
    exists w' x' r, load_module P ptrue fs None w = (w', r) /\ ended P ptrue peqb more w' /\ idle P w' (List.length (w_circ w)) x' /\
      loaded P (List.length (w_circ w)) (one_more P w) empty_circuit w' x' (c_ops x') /\
      loads P w' x' (List.length (w_circ w)) gs mq mb e (c_ops x') r /\
      (e = None -> (forall k, k < List.length (circuit_qubits x') <-> exists g j, In g gs /\ In j (snd g) /\ k <= j)).
Proof. exact load_new. Qed.
Print Assumptions C72_new_partial.

(** ** Loading into a circuit: the same, behind the operations that are there, if the circuit has all the qubits and bits
    or new ones can be added at the end. *)
Theorem C72_loads_partial :
  forall P ptrue peqb more c (w : world P) x fs gs mq mb e N,
    ended P ptrue peqb more w -> idle P w c x -> asks P w (calls_read P fs) gs mq mb e -> 0 < N ->
    Forall (below P N) (calls_read P fs) -> roomy (c_q x) N -> roomy (c_b x) N -> clear_at P w x ->
    ssize_ok (zn (List.length (w_qubit w) + N + N) + 1) = true -> ssize_ok (zn (List.length (w_bit w) + N) + 1) = true ->
    exists w' x' os r, load_module P ptrue fs (Some c) w = (w', r) /\ ended P ptrue peqb more w' /\ idle P w' c x' /\ loaded P c w x w' x' os /\
      loads P w' x' c gs mq mb e os r /\
      (e = None -> (forall k, k < List.length (circuit_qubits x') <-> k < List.length (circuit_qubits x) \/ exists g j, In g gs /\ In j (snd g) /\ k <= j)) /\
      (r = Ok c -> mq <> [] -> List.length (circuit_bits x') = Nat.max (List.length (circuit_bits x)) (S (maxi mb))) /\
      (mq = [] -> circuit_bits x' = circuit_bits x).
Proof. exact module_step. Qed.
Print Assumptions C72_loads_partial.

(** ** A program of the base profile: the loaded circuit does what the program does. *)
Theorem C72_means_partial :
  forall ptrue peqb more (w : world R) fs gs ms rs n N,
    ended R ptrue peqb more w -> w_active w = None -> w_exit w = [] ->
    base_program (calls_read R fs) gs ms rs -> gate_places gs n -> 1 <= n <= 30 -> n <= N -> Forall (fun m => fst m < n /\ snd m < N) ms ->
    ssize_ok (zn (List.length (w_qubit w) + N + N) + 1) = true -> ssize_ok (zn (List.length (w_bit w) + N) + 1) = true ->
    exists w' x' sc bits recorded, load_module R ptrue fs None w = (w', Ok (List.length (w_circ w))) /\ ended R ptrue peqb more w' /\ idle R w' (List.length (w_circ w)) x' /\
      loaded R (List.length (w_circ w)) (one_more R w) empty_circuit w' x' (c_ops x') /\
      seen w' (List.length (w_circ w)) = Some sc /\ circuit_qubits x' = map IQubit (sc_qubits Ccring sc) /\ List.length (circuit_qubits x') = n /\
      circuit_bits x' = map IBit bits /\ Forall2 (fun b r => nth_error bits r = Some b) recorded rs /\
      same_runs sc bits recorded (memory w') (calls_read R fs).
Proof. exact load_means. Qed.
Print Assumptions C72_means_partial.

(** ** A circuit compiled and loaded back: both circuits do what the program in between does. *)
Theorem C72_round_trip_partial :
  forall ptrue peqb more p (v : world R),
    executes R ptrue peqb (both_ok R ptrue peqb) p (start R (library_classes ++ more)%list) ->
    visits R ptrue peqb p (start R (library_classes ++ more)%list) v -> small R v ->
    forall c x, nth_error (w_circ v) c = Some x ->
    forall pnum dbl, (forall a, dbl (PNum a) = a) ->
    forall gates meas, c_ops x = (gates ++ meas)%list ->
    (forall o y, In o gates -> nth_error (w_op v) o = Some y -> base_op pnum v x o y) ->
    (forall o y, In o meas -> nth_error (w_op v) o = Some y -> meas_op v x o y) ->
    one_used (s_regs (c_q x)) -> one_used (s_regs (c_b x)) -> 1 <= List.length (circuit_qubits x) <= 30 ->
    (exists o y qs q, In o gates /\ nth_error (w_op v) o = Some y /\ o_qubits y = Some qs /\ In q qs /\ nth_error (circuit_qubits x) (List.length (circuit_qubits x) - 1) = Some q) ->
    forall ext more' (w : world R) N, ended R ptrue peqb more' w -> w_active w = None -> w_exit w = [] ->
    List.length (circuit_qubits x) <= N -> List.length (circuit_bits x) <= N ->
    ssize_ok (zn (List.length (w_qubit w) + N + N) + 1) = true -> ssize_ok (zn (List.length (w_bit w) + N) + 1) = true ->
    exists q ks sc bits measured, qir_circuit R v c = Some q /\ to_qir_calls (param R) pnum R dbl q ext = Ok [mkMain R ks true] /\
      seen v c = Some sc /\ circuit_bits x = map IBit bits /\ same_runs sc bits measured (memory v) ks /\
      forall fs, calls_read R fs = ks -> exists w' x' sc' bits' measured', load_module R ptrue fs None w = (w', Ok (List.length (w_circ w))) /\
        ended R ptrue peqb more' w' /\ nth_error (w_circ w') (List.length (w_circ w)) = Some x' /\ seen w' (List.length (w_circ w)) = Some sc' /\
        List.length (circuit_qubits x') = List.length (circuit_qubits x) /\ circuit_bits x' = map IBit bits' /\
        same_runs sc' bits' measured' (memory w') ks.
Proof. exact round_trip. Qed.
Print Assumptions C72_round_trip_partial.

(** ** Cases *)
Definition qc (n : string) (l : list (carg Z)) : instr Z := ICall Z (gc n l).
(** A function without blocks, and one with three blocks, of which the second returns. *)
Definition demo : list (func Z) :=
  [[]; [[ICall Z (Call Z "__quantum__rt__initialize" []); qc "h" [CQubit Z 0]; qc "cnot" [CQubit Z 0; CQubit Z 2]; IOther Z];
        [qc "mz" [CQubit Z 2; CResult Z 0]; qc "rx" [CDouble Z 5%Z; CQubit Z 1]; qc "mz" [CQubit Z 0; CResult Z 1]; IRet Z; qc "x" [CQubit Z 7]];
        [qc "x" [CQubit Z 8]]]].
Definition demo_gates : list (gate Z) := [("Hadamard", [], [0]); ("CX", [], [0; 2]); ("RX", [5%Z], [1])].
Ltac asked := repeat first [apply ask_nil|apply ask_other; [reflexivity|]
  |eapply (ask_measure Z _ _ [CQubit Z _; CResult Z _]); [cbn; tauto|]
  |eapply (ask_gate Z); [cbn; tauto|discriminate|do 2 eexists; repeat split; reflexivity|reflexivity|]].
Lemma ended_z p : executesb Z ztrue Z.eqb okb p (zstart library_classes) = true -> ended Z ztrue Z.eqb [] (zend p).
Proof. intros H. exists p. rewrite app_nil_r. split; [|reflexivity]. now apply (executesb_sound Z ztrue Z.eqb okb); [exact okb_sound|]. Qed.
Lemma demo_asks (w : world Z) : w_cls w = library_classes -> asks Z w (calls_read Z demo) demo_gates [2; 0] [0; 1] None.
Proof.
  intros Hw. apply ask_other; [reflexivity|].
  apply (ask_gate Z w _ [CQubit Z 0] _ "Hadamard" (mkCls "Hadamard" KPlain (Some 1) None None None)); [cbn; tauto|discriminate|exists 4; eexists; rewrite Hw; repeat split|reflexivity|].
  apply (ask_gate Z w _ [CQubit Z 0; CQubit Z 2] _ "CX" (mkCls "CX" KCtrl None (Some 1) (Some 1) None)); [cbn; tauto|discriminate|exists 11; eexists; rewrite Hw; repeat split|reflexivity|].
  apply (ask_measure Z w _ [CQubit Z 2; CResult Z 0] _ [("RX", [5%Z], [1])] [0] [1]); [cbn; tauto|].
  apply (ask_gate Z w _ [CDouble Z 5%Z; CQubit Z 1] _ "RX" (mkCls "RX" KParam (Some 1) None None (Some 1))); [cbn; tauto|discriminate|exists 7; eexists; rewrite Hw; repeat split|reflexivity|].
  apply (ask_measure Z w _ [CQubit Z 0; CResult Z 1] _ [] [] []); [cbn; tauto|]. constructor.
Qed.
Lemma demo_below : Forall (below Z 3) (calls_read Z demo).
Proof. repeat constructor. Qed.
(** The operations of the last circuit: names, qubits, bits. *)
Definition ops_of (w : world Z) (c : nat) : list (string * option (list item) * option (list item)) :=
  match nth_error (w_circ w) c with
  | None => []
  | Some x => flat_map (fun o => match nth_error (w_op w) o with
      | Some y => match nth_error (w_cls w) (o_cls y) with Some k => [(k_name k, o_qubits y, o_bits y)] | None => [] end | None => [] end) (c_ops x)
  end.
Example C72_new_case :
  ended Z ztrue Z.eqb [] (zend Skip) /\ w_active (zend Skip) = None /\ w_exit (zend Skip) = [] /\
  asks Z (zend Skip) (calls_read Z demo) demo_gates [2; 0] [0; 1] None /\ Forall (below Z 3) (calls_read Z demo) /\
  snd (load_module Z ztrue demo None (zend Skip)) = Ok 0 /\
  ops_of (fst (load_module Z ztrue demo None (zend Skip))) 0 =
    [("Hadamard", Some [IQubit 0], None); ("CX", Some [IQubit 0; IQubit 2], None); ("RX", Some [IQubit 1], None); ("Measurement", Some [IQubit 2; IQubit 0], Some [IBit 0; IBit 1])].
Proof.
  split; [apply ended_z; reflexivity|]. split; [reflexivity|]. split; [reflexivity|]. split; [now apply demo_asks|]. split; [exact demo_below|]. split; vm_compute; reflexivity.
Qed.
(** One qubit and an X are there. *)
Definition half : prog Z := Seq (calls [CNew _ false (Some 1) None]) (With 0 (calls [CConstruct 1 None (AQ (Some [IQubit 0]))])).
Definition half_world : world Z := ltac:(let w := eval vm_compute in (zend half) in exact w).
Lemma half_eq : zend half = half_world. Proof. vm_compute. reflexivity. Qed.
Example C72_loads_case :
  ended Z ztrue Z.eqb [] (zend half) /\ (exists x, idle Z (zend half) 0 x /\ roomy (c_q x) 3 /\ roomy (c_b x) 3 /\ clear_at Z (zend half) x) /\
  asks Z (zend half) (calls_read Z demo) demo_gates [2; 0] [0; 1] None /\ Forall (below Z 3) (calls_read Z demo) /\
  snd (load_module Z ztrue demo (Some 0) (zend half)) = Ok 0 /\
  ops_of (fst (load_module Z ztrue demo (Some 0) (zend half))) 0 =
    [("X", Some [IQubit 0], None);
     ("Hadamard", Some [IQubit 0], None); ("CX", Some [IQubit 0; IQubit 2], None); ("RX", Some [IQubit 1], None); ("Measurement", Some [IQubit 2; IQubit 0], Some [IBit 0; IBit 1])].
Proof.
  split; [apply ended_z; reflexivity|]. split.
  - rewrite half_eq. eexists. split; [constructor; [reflexivity|reflexivity|reflexivity|intros a [= <-]; reflexivity]|]. split; [|split].
    + left. right. eexists _, _, _. split; [reflexivity|]. split; [reflexivity|constructor].
    + left. left. reflexivity.
    + intros i b Hi. destruct i; discriminate.
  - split; [apply demo_asks; rewrite half_eq; reflexivity|]. split; [exact demo_below|]. split; vm_compute; reflexivity.
Qed.
(** The program of Hadamard, CX, RX(a) and two measurements; the second result is recorded. *)
Definition rc (n : string) (l : list (carg R)) : instr R := ICall R (Call R ("__quantum__qis__" ++ n ++ "__body") l).
Definition base_demo (a : R) : list (func R) :=
  [[[ICall R (Call R "__quantum__rt__initialize" []); rc "h" [CQubit R 0]; rc "cnot" [CQubit R 0; CQubit R 1]; rc "rx" [CDouble R a; CQubit R 1];
     rc "mz" [CQubit R 1; CResult R 0]; rc "mz" [CQubit R 0; CResult R 2]; ICall R (Call R "__quantum__rt__result_record_output" [CResult R 2]); IRet R]]].
Definition base_gates (a : R) : list base_call :=
  [("__quantum__qis__h__body", [], [0]); ("__quantum__qis__cnot__body", [], [0; 1]); ("__quantum__qis__rx__body", [a], [1])].
Lemma ended_r more : ended R rtrue req more (start R (library_classes ++ more)%list).
Proof. exists Skip. split; [exact I|reflexivity]. Qed.
Example C72_means_case (a : R) :
  ended R rtrue req [] (start R (library_classes ++ [])%list) /\ base_program (calls_read R (base_demo a)) (base_gates a) [(1, 0); (0, 2)] [2] /\
  gate_places (base_gates a) 2 /\ Forall (fun m => fst m < 2 /\ snd m < 3) [(1, 0); (0, 2)].
Proof.
  split; [apply ended_r|]. split; [|split].
  - constructor.
    + exists 1. reflexivity.
    + repeat constructor; do 2 eexists; (split; [reflexivity|]); split; try reflexivity; repeat (apply NoDup_cons; [cbn; intuition discriminate|]); apply NoDup_nil.
    + intros r [<-|[]]. cbn. auto.
  - intros k. split.
    + intros Hk. exists ("__quantum__qis__cnot__body", [], [0; 1]), 1. cbn. repeat split; auto; lia.
    + intros (g & j & Hg & Hj & Hk). cbn in Hg. destruct Hg as [<-|[<-|[<-|[]]]]; cbn in Hj; intuition lia.
  - repeat constructor; cbn; lia.
Qed.
(** The circuit of C71_means_case: its CX is on the last qubit; its program is that of a module. *)
Example C72_round_trip_case (a : R) :
  exists x, nth_error (w_circ (sem_end a)) 0 = Some x /\
    (exists o y qs q, In o [0; 1; 2] /\ nth_error (w_op (sem_end a)) o = Some y /\ o_qubits y = Some qs /\ In q qs /\ nth_error (circuit_qubits x) (List.length (circuit_qubits x) - 1) = Some q) /\
    exists fs, calls_read R fs = [Call R "__quantum__rt__initialize" []; Call R "__quantum__qis__h__body" [CQubit R 0]; Call R "__quantum__qis__cnot__body" [CQubit R 0; CQubit R 1];
       Call R "__quantum__qis__rx__body" [CDouble R a; CQubit R 1];
       Call R "__quantum__qis__mz__body" [CQubit R 1; CResult R 0]; Call R "__quantum__qis__mz__body" [CQubit R 0; CResult R 1];
       Call R "__quantum__rt__result_record_output" [CResult R 0]; Call R "__quantum__rt__result_record_output" [CResult R 1]].
Proof.
  rewrite sem_eq. eexists. split; [reflexivity|]. split; [|apply read_calls].
  exists 1. do 3 eexists. split; [cbn; auto|]. split; [reflexivity|]. split; [reflexivity|]. split; [right; left; reflexivity|reflexivity].
Qed.

(** ** Rotation and CRotation have three parameters, and their constructors take a list of them: no module that calls
    them can be loaded, whatever the arguments. *)
Theorem C72_rotation_refused :
  forall P ptrue peqb more (w : world P) fs u args N,
    ended P ptrue peqb more w -> w_active w = None -> w_exit w = [] ->
    u = "__quantum__qis__rot__body" \/ u = "__quantum__qis__crot__body" -> In (Call P u args) (calls_read P fs) -> 0 < N -> Forall (below P N) (calls_read P fs) ->
    ssize_ok (zn (List.length (w_qubit w) + N + N) + 1) = true -> ssize_ok (zn (List.length (w_bit w) + N) + 1) = true ->
    exists w' e, load_module P ptrue fs None w = (w', Err e).
Proof. exact rotation_refused. Qed.
Print Assumptions C72_rotation_refused.
Definition rot_module : list (func Z) := [[[qc "x" [CQubit Z 0]; qc "rot" [CDouble Z 1%Z; CDouble Z 2%Z; CDouble Z 3%Z; CQubit Z 0]; IRet Z]]].
Example C72_rotation_case :
  ended Z ztrue Z.eqb [] (zend Skip) /\ In (gc "rot" [CDouble Z 1%Z; CDouble Z 2%Z; CDouble Z 3%Z; CQubit Z 0]) (calls_read Z rot_module) /\
  Forall (below Z 1) (calls_read Z rot_module) /\ snd (load_module Z ztrue rot_module None (zend Skip)) = Err TypeError.
Proof. split; [apply ended_z; reflexivity|]. split; [cbn; auto|]. split; [repeat constructor|vm_compute; reflexivity]. Qed.

(** ** What does not hold *)
(** A gate after a measurement is put before it. *)
Definition h_last : list (func R) := [[[rc "mz" [CQubit R 0; CResult R 0]; rc "h" [CQubit R 0]; IRet R]]].
Definition mz_last : list (func R) := [[[rc "h" [CQubit R 0]; rc "mz" [CQubit R 0; CResult R 0]; IRet R]]].
Lemma half_sqrt : (1 / sqrt 2 <> 0)%R.
Proof. pose proof (sqrt_lt_R0 2 ltac:(lra)). apply Rgt_not_eq. apply Rdiv_lt_0_compat; lra. Qed.
(** The amplitudes of one qubit after each of the two programs. *)
Lemma ran_h_last os p s : qir_run 1 (calls_read R h_last) ground os p s -> amp s 0%N <> C0 /\ amp s 1%N <> C0.
Proof.
  intros H. unfold ground in H. change (calls_read R h_last) with [Call R "__quantum__qis__mz__body" [CQubit R 0; CResult R 0]; Call R "__quantum__qis__h__body" (map (CDouble R) [] ++ map (CQubit R) [0])] in H.
  apply run_mz_inv in H. destruct H as (o & v & os' & p' & _ & _ & _ & Hp & Hc & H). apply run_gate_inv in H; [|discriminate].
  destruct H as (v' & (ct & m & Eg & Hv) & H). injection Eg as <- <-. destruct Hv as [_ Hv]. inversion H as [a b e f g H1 H2| | | |]; subst. cbn [amp].
  rewrite !H1 by reflexivity. rewrite !Hv by reflexivity. pose proof (Hc 0%N eq_refl) as V0. pose proof (Hc 1%N eq_refl) as V1. clear -Hp V0 V1.
  set (pr := prob false 1 (N.of_nat 0) o _) in *. pose proof (sqrt_lt_R0 pr Hp) as Hs.
  assert (Hk : (1 / sqrt pr <> 0)%R) by (apply Rgt_not_eq; apply Rdiv_lt_0_compat; lra). set (k := (1 / sqrt pr)%R) in *.
  destruct o.
  - exfalso. apply (Rlt_irrefl 0). replace 0%R with pr at 2; [exact Hp|]. unfold pr. cbv -[IZR Rmult Rplus Rminus Ropp]. lra.
  - cbn in V0, V1. pose proof half_sqrt as Hq. set (q := (1 / sqrt 2)%R) in *. clearbody k q pr.
    assert (E0 : v 0%N = RtoC k) by (rewrite V0; apply C_eq; cbv -[IZR Rmult Rplus Rminus Ropp]; lra).
    assert (E1 : v 1%N = C0) by (rewrite V1; apply C_eq; cbv -[IZR Rmult Rplus Rminus Ropp]; lra).
    assert (Hn : (q * k <> 0)%R) by now apply Rmult_integral_contrapositive_currified.
    split; intros Hz; apply (f_equal Re) in Hz; apply Hn; revert Hz; cbv -[IZR Rmult Rplus Rminus Ropp]; rewrite E0, E1; cbv -[IZR Rmult Rplus Rminus Ropp]; lra.
Qed.
Lemma ran_mz_last os p s : qir_run 1 (calls_read R mz_last) ground os p s -> amp s 0%N = C0 \/ amp s 1%N = C0.
Proof.
  intros H. unfold ground in H. change (calls_read R mz_last) with [Call R "__quantum__qis__h__body" (map (CDouble R) [] ++ map (CQubit R) [0]); Call R "__quantum__qis__mz__body" [CQubit R 0; CResult R 0]] in H.
  apply run_gate_inv in H; [|discriminate]. destruct H as (v' & _ & H). apply run_mz_inv in H. destruct H as (o & v & os' & p' & _ & _ & _ & _ & Hc & H).
  inversion H as [a b e f g H1 H2| | | |]; subst. cbn [amp]. rewrite !H1 by reflexivity. destruct o; [left; exact (Hc 0%N eq_refl)|right; exact (Hc 1%N eq_refl)].
Qed.
Theorem C72_order_refuted :
  exists fs gates ms w' sc, calls_read R fs = (map measure_call ms ++ map gate_call gates)%list /\ Forall base_ok gates /\ gate_places gates 1 /\
    load_module R rtrue fs None (start R (library_classes ++ [])%list) = (w', Ok 0) /\ seen w' 0 = Some sc /\
    forall bits measured, ~ same_runs sc bits measured (memory w') (calls_read R fs).
Proof.
  assert (Hg : Forall base_ok [("__quantum__qis__h__body", [], [0])]).
  { constructor; [|constructor]. do 2 eexists. split; [reflexivity|]. split; [|reflexivity]. apply NoDup_cons; [intros []|apply NoDup_nil]. }
  assert (Hp : gate_places [("__quantum__qis__h__body", [], [0])] 1).
  { intros k. split; [intros Hk; exists ("__quantum__qis__h__body", [], [0]), 0; cbn; repeat split; auto; lia|intros (g & j & [<-|[]] & [<-|[]] & Hk); lia]. }
  destruct (load_means rtrue req [] (start R (library_classes ++ [])%list) mz_last [("__quantum__qis__h__body", [], [0])] [(0, 0)] [] 1 1) as (w' & x' & sc & bits & recorded & L & _ & _ & _ & Hs & Hq & Hl & _ & _ & Hr);
    [apply ended_r|reflexivity|reflexivity| |exact Hp|lia|lia|repeat constructor|reflexivity|reflexivity|].
  { constructor; [exists 0; reflexivity|exact Hg|intros r []]. }
  exists h_last, [("__quantum__qis__h__body", [], [0])], [(0, 0)], w', sc. split; [reflexivity|]. split; [exact Hg|]. split; [exact Hp|].
  split; [etransitivity; [|exact L]; vm_compute; reflexivity|]. split; [exact Hs|]. intros bits' measured' Hr'.
  assert (Hn : SimModel.num_qubits Ccring sc = 1%N). { unfold SimModel.num_qubits. rewrite Hq, map_length in Hl. now rewrite Hl. }
  assert (Hz : forall k : nat, uniform ((fun _ => 0%R) k)) by (intros _; unfold uniform; lra).
  destruct Hr as (drawn & D & S & _). destruct (D _ Hz) as (os & Hd & _). destruct (S _ os (mkCst None None) Hz Hd) as (p & s & Hrun & m & a & E & Ha & _).
  destruct Hr' as (drawn' & D' & S' & _). destruct (D' _ Hz) as (os' & Hd' & _). destruct (S' _ os' (mkCst None None) Hz Hd') as (p' & s' & Hrun' & m' & a' & E' & Ha' & _).
  rewrite E in E'. injection E' as _ Eh. rewrite Hn in *. destruct (ran_h_last _ _ _ Hrun') as [N0 N1].
  rewrite Ha' in N0, N1 by reflexivity. rewrite <- Eh in N0, N1. destruct (ran_mz_last _ _ _ Hrun) as [Z|Z]; rewrite Ha in Z by reflexivity; contradiction.
Qed.
Print Assumptions C72_order_refuted.

(** Two registers: the qubits that are added go to the first one, so that places change while the module is loaded; two
    gates on different qubits become two gates on the same one. *)
Definition two_regs : prog Z := calls [CNew _ false (Some 1) None; CAddQReg _ 0 1 (LStr "anc")].
Definition x_x : list (func Z) := [[[qc "x" [CQubit Z 1]; qc "x" [CQubit Z 2]; IRet Z]]].
Theorem C72_registers_refuted :
  exists p, ended Z ztrue Z.eqb [] (zend p) /\ (exists x, idle Z (zend p) 0 x) /\
    asks Z (zend p) (calls_read Z x_x) [("X", [], [1]); ("X", [], [2])] [] [] None /\
    snd (load_module Z ztrue x_x (Some 0) (zend p)) = Ok 0 /\
    ops_of (fst (load_module Z ztrue x_x (Some 0) (zend p))) 0 = [("X", Some [IQubit 1], None); ("X", Some [IQubit 1], None)].
Proof.
  exists two_regs. split; [apply ended_z; reflexivity|]. split; [eexists; constructor; [reflexivity|reflexivity|reflexivity|intros a; discriminate]|].
  split; [|split; vm_compute; reflexivity].
  eapply (ask_gate Z _ _ [CQubit Z 1]); [cbn; tauto|discriminate|exists 1; do 2 eexists; repeat split|reflexivity|].
  eapply (ask_gate Z _ _ [CQubit Z 2]); [cbn; tauto|discriminate|exists 1; do 2 eexists; repeat split|reflexivity|]. constructor.
Qed.
Print Assumptions C72_registers_refuted.

(** Loading is not all or nothing: what was loaded before the error stays in the circuit; also, a measurement without a
    result is refused after it has been put into the circuit. *)
Definition unknown_last : list (func Z) := [[[qc "x" [CQubit Z 0]; qc "iswap" [CQubit Z 0; CQubit Z 1]; IRet Z]]].
Definition no_result : list (func Z) := [[[qc "x" [CQubit Z 0]; qc "mz" [CQubit Z 0]; IRet Z]]].
Theorem C72_failing_refuted :
  exists p, ended Z ztrue Z.eqb [] (zend p) /\ ops_of (zend p) 0 = [] /\
    snd (load_module Z ztrue unknown_last (Some 0) (zend p)) = Err TypeError /\
    ops_of (fst (load_module Z ztrue unknown_last (Some 0) (zend p))) 0 = [("X", Some [IQubit 0], None)] /\
    snd (load_module Z ztrue no_result (Some 0) (zend p)) = Err ValueError /\
    ops_of (fst (load_module Z ztrue no_result (Some 0) (zend p))) 0 = [("X", Some [IQubit 0], None); ("Measurement", Some [IQubit 0], None)].
Proof. exists (calls [CNew _ false (Some 1) None]). split; [apply ended_z; reflexivity|]. repeat split; vm_compute; reflexivity. Qed.
Print Assumptions C72_failing_refuted.

(** A program that measures a qubit with no gate on it or on a later one: a program of the base profile; not loaded. *)
Definition idle_qubit : list (func R) := [[[rc "x" [CQubit R 0]; rc "mz" [CQubit R 1; CResult R 0]; IRet R]]].
Theorem C72_untouched_refuted :
  exists fs gs ms rs w', base_program (calls_read R fs) gs ms rs /\
    (exists os p s, qir_run 2 (calls_read R fs) ground os p s) /\
    load_module R rtrue fs None (start R (library_classes ++ [])%list) = (w', Err IndexError).
Proof.
  exists idle_qubit, [("__quantum__qis__x__body", [], [0])], [(1, 0)], []. eexists. split; [|split].
  - constructor; [exists 0; reflexivity| |intros r []]. constructor; [|constructor]. do 2 eexists. split; [reflexivity|]. split; [|reflexivity]. apply NoDup_cons; [intros []|apply NoDup_nil].
  - change (calls_read R idle_qubit) with [Call R "__quantum__qis__x__body" (map (CDouble R) [] ++ map (CQubit R) [0]); Call R "__quantum__qis__mz__body" [CQubit R 1; CResult R 0]].
    do 3 eexists. eapply qr_gate.
    + do 2 eexists. split; [reflexivity|]. split; [reflexivity|]. intros i _. reflexivity.
    + eapply (qr_mz 2 1 0 false).
      * reflexivity.
      * cbv -[IZR Rmult Rplus Rminus Ropp Rlt]. lra.
      * intros i _. reflexivity.
      * constructor; reflexivity.
  - vm_compute. reflexivity.
Qed.
Print Assumptions C72_untouched_refuted.

(** While a context is active, of this circuit or another one, nothing can be loaded; a circuit that was locked is
    unlocked all the same. *)
Definition two_circuits : prog Z :=
  Seq (calls [CNew _ false (Some 1) None; CNew _ false (Some 1) None]) (With 1 (calls [CConstruct 1 None (AQ (Some [IQubit 1]))])).
Definition busy : prog Z := Seq two_circuits (With 0 Skip).
Definition busy_world : world Z := ltac:(let w := eval vm_compute in (fst ((let! a := context 0 in ctx_enter a) (zend two_circuits))) in exact w).
Definition x_only : list (func Z) := [[[qc "x" [CQubit Z 0]; IRet Z]]].
Definition locked_of (w : world Z) (c : nat) : option bool := option_map c_locked (nth_error (w_circ w) c).
Theorem C72_active_refuted :
  exists v, executes Z ztrue Z.eqb (both_ok Z ztrue Z.eqb) busy (zstart library_classes) /\ visits Z ztrue Z.eqb busy (zstart library_classes) v /\
    w_active v <> None /\ locked_of v 1 = Some true /\
    (exists w', load_module Z ztrue x_only (Some 1) v = (w', Err RuntimeError) /\ locked_of w' 1 = Some false) /\
    exists w', load_module Z ztrue x_only None v = (w', Err RuntimeError).
Proof.
  exists busy_world. split; [apply (executesb_sound Z ztrue Z.eqb okb); [exact okb_sound|vm_compute; reflexivity]|].
  assert (E : run ztrue Z.eqb two_circuits (zstart library_classes) = (zend two_circuits, Ok tt)) by (vm_compute; reflexivity).
  assert (E' : (let! a := context 0 in ctx_enter a) (zend two_circuits) = (busy_world, Ok tt)) by (vm_compute; reflexivity).
  split; [right; right; right; rewrite E; right; right; rewrite E'; left; reflexivity|].
  split; [discriminate|]. split; [reflexivity|]. split; eexists; [split|]; vm_compute; reflexivity.
Qed.
Print Assumptions C72_active_refuted.

(** As long as the class has no number of qubits, CX on one or three qubits is loaded. *)
Definition cx_one : list (func Z) := [[[qc "cnot" [CQubit Z 0]; IRet Z]]].
Definition cx_three : list (func Z) := [[[qc "cnot" [CQubit Z 0; CQubit Z 1; CQubit Z 2]; IRet Z]]].
Theorem C72_arity_refuted :
  exists p, ended Z ztrue Z.eqb [] (zend p) /\ snd (load_module Z ztrue cx_one None (zend p)) = Ok 0 /\
    ops_of (fst (load_module Z ztrue cx_one None (zend p))) 0 = [("CX", Some [IQubit 0], None)] /\
    snd (load_module Z ztrue cx_three None (zend p)) = Ok 0 /\
    ops_of (fst (load_module Z ztrue cx_three None (zend p))) 0 = [("CX", Some [IQubit 0; IQubit 1; IQubit 2], None)].
Proof. exists Skip. split; [apply ended_z; reflexivity|]. repeat split; vm_compute; reflexivity. Qed.
Print Assumptions C72_arity_refuted.

(** A circuit with an unused last qubit: the circuit that is loaded from its program has a qubit less. *)
Definition wide_prog : prog R := Seq (calls [CNew _ false (Some 2) None]) (With 0 (calls [CConstruct 1 None (AQ (Some [IQubit 0]))])).
Definition wide_end : world R := fst (run rtrue req wide_prog (start R (library_classes ++ [])%list)).
Definition wide_world : world R := ltac:(let w := eval vm_compute in wide_end in exact w).
Lemma wide_eq : wide_end = wide_world.
Proof. vm_compute. reflexivity. Qed.
Definition wide_module : list (func R) := [[[ICall R (Call R "__quantum__rt__initialize" []); rc "x" [CQubit R 0]]]].
Definition narrow_world : world R := ltac:(let w := eval vm_compute in (fst (load_module R rtrue wide_module None wide_world)) in exact w).
Theorem C72_unused_refuted :
  exists v x q fs w' x', ended R rtrue req [] v /\ nth_error (w_circ v) 0 = Some x /\ qir_circuit R v 0 = Some q /\
    to_qir_calls (param R) rnum R rdbl q false = Ok [mkMain R (calls_read R fs) true] /\
    load_module R rtrue fs None v = (w', Ok 1) /\ nth_error (w_circ w') 1 = Some x' /\
    List.length (circuit_qubits x) = 2 /\ List.length (circuit_qubits x') = 1.
Proof.
  assert (E : ended R rtrue req [] wide_end).
  { exists wide_prog. split; [|unfold wide_end; reflexivity]. rewrite app_nil_r. apply (executesb_sound R rtrue req okr); [exact okr_sound|]. vm_compute. reflexivity. }
  assert (Hx : exists x, nth_error (w_circ wide_end) 0 = Some x /\ List.length (circuit_qubits x) = 2) by (rewrite wide_eq; eexists; split; reflexivity).
  assert (Hq : exists q, qir_circuit R wide_end 0 = Some q /\ to_qir_calls (param R) rnum R rdbl q false = Ok [mkMain R (calls_read R wide_module) true])
    by (rewrite wide_eq; eexists; split; reflexivity).
  assert (Hl : load_module R rtrue wide_module None wide_end = (narrow_world, Ok 1)) by (vm_compute; reflexivity).
  assert (Hn : exists x, nth_error (w_circ narrow_world) 1 = Some x /\ List.length (circuit_qubits x) = 1) by (eexists; split; reflexivity).
  destruct Hx as (x & X1 & X2), Hq as (q & Q1 & Q2), Hn as (x' & N1 & N2). exists wide_end, x, q, wide_module, narrow_world, x'. repeat (split; [assumption|]). assumption.
Qed.
Print Assumptions C72_unused_refuted.

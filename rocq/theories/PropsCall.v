(** Property C74: calling a circuit inside another one applies its operator to the given qubits. *)
From Coq Require Import List ZArith NArith String Bool Arith Lia Reals Lra.
From Verif Require Import Py CRing Cplx KernelSpec SimModel SimSpec SimReal UnitaryModel UnitarySpec GateModel RegisterModel
  WorldModel WorldSpec WorldSpec2 WorldSpec3 WorldSpec4 WorldCheck WorldStep LinkModel LinkSpec LinkProofs PropsLink CallSpec CallProofs3 CallSpec2 CallWorld.
Import ListNotations.
Local Open Scope nat_scope.
Local Open Scope string_scope.

(** ** The operator of a circuit without measurements and conditions: there is one, it is unique and unitary,
    it says what the circuit makes of every state, and build_unitary computes it. *)
Theorem C74_operator_partial :
  forall (K : cring) le (c : scirc K), wf_circ c -> measurement_free c -> unconditional c ->
    exists M, operator le c M /\
      (forall M', operator le c M' -> forall r s, (r < 2 ^ SimModel.num_qubits K c)%N -> (s < 2 ^ SimModel.num_qubits K c)%N -> M' r s = M r s) /\
      (unitary_circ c -> unitary (2 ^ SimModel.num_qubits K c) M) /\
      (forall bits u w, runs le c bits (sc_ops K c) u w -> forall i, (i < 2 ^ SimModel.num_qubits K c)%N -> w i = mat_vec (SimModel.num_qubits K c) M u i).
Proof. exact operator_all. Qed.
Print Assumptions C74_operator_partial.
Theorem C74_matrix_partial :
  forall (K : cring) (c : scirc K) xs, wf_circ c -> Forall2 seen_as (sc_ops K c) xs -> unconditional c ->
    exists M, build_unitary K (sc_qubits K c) xs = Ok M /\ operator false c M.
Proof. exact build_operator. Qed.
Print Assumptions C74_matrix_partial.

Definition flip_z : N -> N -> Zcring := fun i j => if N.eqb i j then 0%Z else 1%Z.
(** X and a CX over the integers. *)
Definition pair_gates : scirc Zcring := mkScirc Zcring [5; 6]
  [mkSop Zcring (KOther Zcring 1 flip_z) (Some [5]) []; mkSop Zcring (KControlled Zcring 1 2 flip_z) (Some [5; 6]) []].
Example C74_operator_case : wf_circ pair_gates /\ measurement_free pair_gates /\ unconditional pair_gates /\
  Forall2 seen_as (sc_ops Zcring pair_gates) [USingle Zcring 1 flip_z (Some [5]); UControlled Zcring 2 (Some flip_z) [5] [6]] /\
  exists M, build_unitary Zcring [5; 6] [USingle Zcring 1 flip_z (Some [5]); UControlled Zcring 2 (Some flip_z) [5] [6]] = Ok M /\
    map (fun r => M r 0%N) [0; 1; 2; 3]%N = [0; 0; 0; 1]%Z.
Proof.
  split.
  { split; [repeat constructor; simpl; intuition discriminate|]. split; [discriminate|].
    intros o H. cbn in H. destruct H as [<-|[<-|[]]]; (eexists; split; [reflexivity|]; split;
      [intros q; cbn; intuition subst; auto|split;
      [intros _; repeat constructor; simpl; intuition discriminate|split;
      [intros k Hk; injection Hk as <-; reflexivity|cbn; auto]]]). }
  split; [intros o [<-|[<-|[]]]; reflexivity|]. split; [intros o [<-|[<-|[]]]; reflexivity|]. split; [repeat constructor|].
  eexists. split; [reflexivity|]. vm_compute. reflexivity.
Qed.

(** ** Calling circuit [t] on the qubits [ids] of the circuit [d] that records: simulating [d] afterwards gives
    what simulating it before gives, changed by the operator of [t] on these qubits and by nothing else; the
    conditions of [t] play no part. *)
Theorem C74_called_partial :
  forall ptrue peqb extra p (v : world R) t x d xd sd ids ba (rnd : nat -> R),
    executes R ptrue peqb (own_ok R) p (start R (library_classes ++ extra)%list) ->
    visits R ptrue peqb p (start R (library_classes ++ extra)%list) v -> small R v ->
    nth_error (w_circ v) t = Some x -> (forall o y, In o (c_ops x) -> nth_error (w_op v) o = Some y -> ready v x o y) -> circuit_qubits x <> [] ->
    nth_error (w_circ v) d = Some xd -> recording R v = Some d -> seen v d = Some sd -> List.length (circuit_qubits xd) <= 30 ->
    NoDup ids -> (forall q, In q ids -> In (IQubit q) (circuit_qubits xd)) ->
    snd (do_call ptrue peqb (CCall R t (map IQubit ids) ba) v) = Ok tt ->
    exists st, seen v t = Some st /\ circuit_qubits x = map IQubit (sc_qubits Ccring st) /\
      (measurement_free st -> applied rnd v (fst (do_call ptrue peqb (CCall R t (map IQubit ids) ba) v)) d (unconditioned st) ids).
Proof. exact call_applied. Qed.
Print Assumptions C74_called_partial.

(** Calling a parametric circuit: the same, with the gates that its operations stand for once its variables have
    the values given. *)
Theorem C74_parametric_partial :
  forall ptrue peqb extra p (v : world R) t x d xd sd ps ids ba (rnd : nat -> R),
    executes R ptrue peqb (own_ok R) p (start R (library_classes ++ extra)%list) ->
    visits R ptrue peqb p (start R (library_classes ++ extra)%list) v -> small R v ->
    nth_error (w_circ v) t = Some x -> (forall o y, In o (c_ops x) -> nth_error (w_op v) o = Some y -> fillable v y) -> circuit_qubits x <> [] ->
    nth_error (w_circ v) d = Some xd -> recording R v = Some d -> ~ takes_variables xd -> seen v d = Some sd -> List.length (circuit_qubits xd) <= 30 ->
    NoDup ids -> (forall q, In q ids -> In (IQubit q) (circuit_qubits xd)) ->
    snd (do_call ptrue peqb (CCallPar t ps (map IQubit ids) ba) v) = Ok tt ->
    exists st, circuit_qubits x = map IQubit (sc_qubits Ccring st) /\
      Forall2 (meant (given_value R ptrue v (c_vars x) ps) v) (c_ops x) (sc_ops Ccring st) /\
      applied rnd v (fst (do_call ptrue peqb (CCallPar t ps (map IQubit ids) ba) v)) d st ids.
Proof. exact parametric_applied. Qed.
Print Assumptions C74_parametric_partial.

(** ** Cases *)
(** Circuit 0 (Hadamard, CX) and the parametric circuit 2 (RX of its variable, CX, CRX of a number) are called
    from circuit 1, which has three qubits and a Hadamard already. *)
Definition prepare (b : R) : prog R :=
  Seq (calls [CNew _ false (Some 2) None; CNew _ false (Some 3) None; CNew _ true (Some 2) None])
  (Seq (With 0 (calls [CConstruct 4 None (AQ (Some [IQubit 0])); CConstruct 11 None (AQ (Some [IQubit 0; IQubit 1]))]))
       (With 2 (calls [CGetParam _ 2 0; CConstruct 7 (Some [PVar 0]) (AQ (Some [IQubit 5])); CConstruct 11 None (AQ (Some [IQubit 6; IQubit 5]));
                       CConstruct 15 (Some [PNum b]) (AQ (Some [IQubit 5; IQubit 6]))]))).
Definition first : prog R := calls [CConstruct 4 None (AQ (Some [IQubit 2]))].
Definition prepared (b : R) : world R := ltac:(let w := eval vm_compute in (fst (run rtrue req (prepare b) (start R library_classes))) in exact w).
Definition entered (b : R) : world R := ltac:(let w := eval vm_compute in (fst ((let! a := context 1 in ctx_enter a) (prepared b))) in exact w).
Definition calling (b : R) : world R := ltac:(let w := eval vm_compute in (fst (run rtrue req first (entered b))) in exact w).
Lemma calling_reached b : executes R rtrue req (own_ok R) (Seq (prepare b) (With 1 first)) (start R (library_classes ++ [])%list) /\
  visits R rtrue req (Seq (prepare b) (With 1 first)) (start R (library_classes ++ [])%list) (calling b) /\ small R (calling b).
Proof.
  rewrite app_nil_r. split; [|split].
  - apply (executesb_sound R rtrue req own_okr); [exact own_okr_sound|]. vm_compute. reflexivity.
  - right. right. right.
    assert (E0 : run rtrue req (prepare b) (start R library_classes) = (prepared b, Ok tt)) by (vm_compute; reflexivity).
    assert (E1 : (let! a := context 1 in ctx_enter a) (prepared b) = (entered b, Ok tt)) by (vm_compute; reflexivity).
    assert (E2 : calling b = fst (run rtrue req first (entered b))) by (vm_compute; reflexivity).
    rewrite E0. right. right. rewrite E1. right. left. exact E2.
  - split; vm_compute; reflexivity.
Qed.

Definition one (g : gate) (qs : list nat) : sop Ccring := mkSop Ccring (gate_kind g) (Some qs) [].
Example C74_called_case (b : R) :
  exists x xd, nth_error (w_circ (calling b)) 0 = Some x /\ nth_error (w_circ (calling b)) 1 = Some xd /\ recording R (calling b) = Some 1 /\
    (forall o y, In o (c_ops x) -> nth_error (w_op (calling b)) o = Some y -> ready (calling b) x o y) /\ circuit_qubits x <> [] /\
    List.length (circuit_qubits xd) = 3 /\ NoDup [4; 2] /\ (forall q, In q [4; 2] -> In (IQubit q) (circuit_qubits xd)) /\
    seen (calling b) 0 = Some (mkScirc Ccring [0; 1] [one (GOne GHadamard) [0]; one (GC GX) [0; 1]]) /\
    seen (calling b) 1 = Some (mkScirc Ccring [2; 3; 4] [one (GOne GHadamard) [2]]) /\
    snd (do_call rtrue req (CCall R 0 [IQubit 4; IQubit 2] BNone) (calling b)) = Ok tt /\
    seen (fst (do_call rtrue req (CCall R 0 [IQubit 4; IQubit 2] BNone) (calling b))) 1 =
      Some (mkScirc Ccring [2; 3; 4] [one (GOne GHadamard) [2]; one (GOne GHadamard) [4]; one (GC GX) [4; 2]]).
Proof.
  eexists _, _. split; [reflexivity|]. split; [reflexivity|]. split; [reflexivity|].
  split; [intros o y Ho Ey; cbn in Ho; destruct Ho as [<-|[<-|[]]]; cbn in Ey; injection Ey as <-; is_ready|].
  split; [discriminate|]. split; [reflexivity|]. split; [repeat (apply NoDup_cons; [cbn; intuition discriminate|]); apply NoDup_nil|].
  split; [intros q [<-|[<-|[]]]; cbn; auto|]. split; [reflexivity|]. split; [reflexivity|]. split; [vm_compute; reflexivity|].
  reflexivity.
Qed.
Example C74_parametric_case (a b : R) :
  exists x xd, nth_error (w_circ (calling b)) 2 = Some x /\ nth_error (w_circ (calling b)) 1 = Some xd /\ recording R (calling b) = Some 1 /\
    c_vars x = [0] /\ ~ takes_variables xd /\
    (forall o y, In o (c_ops x) -> nth_error (w_op (calling b)) o = Some y -> fillable (calling b) y) /\ circuit_qubits x <> [] /\
    snd (do_call rtrue req (CCallPar 2 [a] [IQubit 4; IQubit 2] BNone) (calling b)) = Ok tt /\
    Forall2 (meant (given_value R rtrue (calling b) [0] [a]) (calling b)) (c_ops x)
      [one (GOne (GRX a)) [5]; one (GC GX) [6; 5]; one (GC (GRX b)) [5; 6]] /\
    seen (fst (do_call rtrue req (CCallPar 2 [a] [IQubit 4; IQubit 2] BNone) (calling b))) 1 =
      Some (mkScirc Ccring [2; 3; 4] [one (GOne GHadamard) [2]; one (GOne (GRX a)) [4]; one (GC GX) [2; 4]; one (GC (GRX b)) [4; 2]]).
Proof.
  eexists _, _. split; [reflexivity|]. split; [reflexivity|]. split; [reflexivity|]. split; [reflexivity|].
  split; [intros [H _]; discriminate H|].
  split.
  { intros o y Ho Ey. cbn in Ho. destruct Ho as [<-|[<-|[<-|[]]]]; cbn in Ey; injection Ey as <-; (constructor; cbn;
      [repeat constructor|intros k [= <-]; discriminate
      |eexists; split; [reflexivity|]; split; [repeat (apply NoDup_cons; [cbn; intuition discriminate|]); apply NoDup_nil|intros k [= <-]; intros [H|H]; try discriminate H; reflexivity]
      |intros k [= <-]; cbn; try discriminate; (intros _; split; [discriminate|intros [H|H]; try discriminate H; repeat constructor; eexists; reflexivity])]). }
  split; [discriminate|]. split; [vm_compute; reflexivity|]. split; [|reflexivity].
  cbn. repeat apply Forall2_cons; [| | |apply Forall2_nil].
  - eexists _, _, [5], [a], _. do 6 (split; [reflexivity|]). split; [apply st_one; constructor|]. cbn. constructor; [|constructor].
    left. exists 0, a. auto.
  - eexists _, _, [6; 5], [], _. do 6 (split; [reflexivity|]). split; [apply (st_ctrl "X"); constructor|]. reflexivity.
  - eexists _, _, [5; 6], [b], _. do 6 (split; [reflexivity|]). split; [apply (st_ctrl "RX"); constructor|]. reflexivity.
Qed.

(** ** What the hypotheses exclude *)
(** The circuit with a condition, simulated with its bit at 0, leaves its qubit alone; called, it flips it. *)
Definition gated : prog R :=
  Seq (calls [CNew _ false (Some 1) (Some 1); CNew _ false (Some 1) None; CBitSet _ 0 false false])
      (With 0 (calls [CConstruct 1 None (AQ (Some [IQubit 0])); CCond _ 0 [IBit 0]])).
Definition gated_end : world R := ltac:(let w := eval vm_compute in (fst (run rtrue req gated (start R library_classes))) in exact w).
Definition gated_in : world R := ltac:(let w := eval vm_compute in (fst ((let! a := context 1 in ctx_enter a) gated_end)) in exact w).
Definition flip (c : list nat) (q : nat) : scirc Ccring := mkScirc Ccring [q] [mkSop Ccring (gate_kind (GOne GX)) (Some [q]) c].
Theorem C74_condition_refuted :
  exists p v st sd', executes R rtrue req (own_ok R) p (start R library_classes) /\ visits R rtrue req p (start R library_classes) v /\ small R v /\
    recording R v = Some 1 /\ seen v 0 = Some st /\ snd (do_call rtrue req (CCall R 0 [IQubit 1] BNone) v) = Ok tt /\
    seen (fst (do_call rtrue req (CCall R 0 [IQubit 1] BNone) v)) 1 = Some sd' /\
    forall rnd, exists m u w, simulate_C rnd st false false (memory v) = (m, Ok (SVec Ccring u)) /\
      simulate_C rnd sd' false false (memory v) = (m, Ok (SVec Ccring w)) /\ u 0%N = RtoC 1 /\ w 0%N = RtoC 0.
Proof.
  exists (Seq gated (With 1 Skip)), gated_in, (flip [0] 0), (flip [] 1).
  split; [apply (executesb_sound R rtrue req own_okr); [exact own_okr_sound|]; vm_compute; reflexivity|].
  split.
  { right. right. right. assert (E0 : run rtrue req gated (start R library_classes) = (gated_end, Ok tt)) by (vm_compute; reflexivity).
    assert (E1 : (let! a := context 1 in ctx_enter a) gated_end = (gated_in, Ok tt)) by (vm_compute; reflexivity).
    rewrite E0. right. right. rewrite E1. left. reflexivity. }
  split; [split; vm_compute; reflexivity|]. split; [reflexivity|]. split; [reflexivity|]. split; [vm_compute; reflexivity|]. split; [reflexivity|].
  intros rnd. eexists _, _, _. split; [reflexivity|]. split; [reflexivity|]. split; [reflexivity|].
  cbv -[IZR Rmult Rplus Rminus Ropp]. f_equal; lra.
Qed.
Print Assumptions C74_condition_refuted.

(** A qubit of another circuit is accepted for a qubit that the called circuit does not use, and the same qubit
    for two qubits that are not used together. *)
Definition partly (l : list (call R)) : prog R :=
  Seq (calls [CNew _ false (Some 2) None; CNew _ false (Some 1) None]) (With 0 (calls l)).
Definition partly_end (l : list (call R)) : world R := fst ((let! a := context 1 in ctx_enter a) (fst (run rtrue req (partly l) (start R library_classes)))).
Definition flips0 : call R := CConstruct 1 None (AQ (Some [IQubit 0])).
Definition flips1 : call R := CConstruct 1 None (AQ (Some [IQubit 1])).
Lemma partly_visited l : snd (run rtrue req (partly l) (start R library_classes)) = Ok tt ->
  snd ((let! a := context 1 in ctx_enter a) (fst (run rtrue req (partly l) (start R library_classes)))) = Ok tt ->
  visits R rtrue req (Seq (partly l) (With 1 Skip)) (start R library_classes) (partly_end l).
Proof.
  intros H1 H2. right. right. right. unfold partly_end. destruct (run rtrue req (partly l) (start R library_classes)) as [w [[]|]]; [|discriminate H1].
  cbn [fst] in *. right. right. destruct ((let! a := context 1 in ctx_enter a) w) as [w' [[]|]]; [|discriminate H2]. left. reflexivity.
Qed.
Theorem C74_foreign_refuted :
  exists p v xd, executes R rtrue req (own_ok R) p (start R library_classes) /\ visits R rtrue req p (start R library_classes) v /\ small R v /\
    recording R v = Some 1 /\ nth_error (w_circ v) 1 = Some xd /\ ~ In (IQubit 0) (circuit_qubits xd) /\
    snd (do_call rtrue req (CCall R 0 [IQubit 2; IQubit 0] BNone) v) = Ok tt /\
    seen (fst (do_call rtrue req (CCall R 0 [IQubit 2; IQubit 0] BNone) v)) 1 = Some (flip [] 2).
Proof.
  exists (Seq (partly [flips0]) (With 1 Skip)), (partly_end [flips0]). eexists.
  split; [apply (executesb_sound R rtrue req own_okr); [exact own_okr_sound|]; vm_compute; reflexivity|].
  split; [apply partly_visited; vm_compute; reflexivity|]. split; [split; vm_compute; reflexivity|]. split; [vm_compute; reflexivity|].
  split; [vm_compute; reflexivity|]. split; [cbn; intros [H|[]]; discriminate|]. split; [vm_compute; reflexivity|]. reflexivity.
Qed.
Print Assumptions C74_foreign_refuted.
Theorem C74_repeated_refuted :
  exists p v, executes R rtrue req (own_ok R) p (start R library_classes) /\ visits R rtrue req p (start R library_classes) v /\ small R v /\
    recording R v = Some 1 /\ seen v 0 = Some (mkScirc Ccring [0; 1] [one (GOne GX) [0]; one (GOne GX) [1]]) /\
    snd (do_call rtrue req (CCall R 0 [IQubit 2; IQubit 2] BNone) v) = Ok tt /\
    seen (fst (do_call rtrue req (CCall R 0 [IQubit 2; IQubit 2] BNone) v)) 1 = Some (mkScirc Ccring [2] [one (GOne GX) [2]; one (GOne GX) [2]]).
Proof.
  exists (Seq (partly [flips0; flips1]) (With 1 Skip)), (partly_end [flips0; flips1]).
  split; [apply (executesb_sound R rtrue req own_okr); [exact own_okr_sound|]; vm_compute; reflexivity|].
  split; [apply partly_visited; vm_compute; reflexivity|]. split; [split; vm_compute; reflexivity|]. split; [vm_compute; reflexivity|].
  split; [reflexivity|]. split; [vm_compute; reflexivity|]. reflexivity.
Qed.
Print Assumptions C74_repeated_refuted.

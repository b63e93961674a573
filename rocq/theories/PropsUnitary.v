(** Properties C42-C44: dwave/gate/tools/unitary.py. *)
From Coq Require Import List NArith ZArith Bool Lia Reals Lra.
From Verif Require Import Py CRing Cplx KernelModel KernelSpec SimModel SimSpec SimReal SimProofs SimProofs2 UnitaryModel UnitarySpec
  UnitaryProofs UnitaryProofs2 UnitaryProofs3 UnitaryProofs4 CacheModel CacheProofs GateModel GateProofs.
Import ListNotations.
Local Open Scope N_scope.

(** C42: for distinct valid indices the result is the controlled operator, entry by entry. *)
Theorem C42_controlled_unitary :
  forall (K : cring) (n : N) (cs : list N) (t : N) (u : N -> N -> K),
    (forall q, In q (t :: cs) -> q < n) -> NoDup (t :: cs) ->
    exists M, build_controlled_unitary K (map Z.of_N cs) [Z.of_N t] 2 u (Some (Z.of_N n)) = Ok (Z.of_N n, M) /\
      forall i j, i < 2 ^ n -> j < 2 ^ n -> M i j = ctrl_entry n cs t u i j.
Proof. exact bcu_correct. Qed.
Print Assumptions C42_controlled_unitary.

(** Without [num_qubits] the matrix is as small as the largest index allows. *)
Theorem C42_default_num_qubits :
  forall (K : cring) (cs : list N) (t : N) (u : N -> N -> K) (n : N),
    NoDup (t :: cs) -> In n (t :: cs) -> (forall q, In q (t :: cs) -> q <= n) ->
    exists M, build_controlled_unitary K (map Z.of_N cs) [Z.of_N t] 2 u None = Ok (Z.of_N (n + 1), M) /\
      forall i j, i < 2 ^ (n + 1) -> j < 2 ^ (n + 1) -> M i j = ctrl_entry (n + 1) cs t u i j.
Proof. exact bcu_default. Qed.
Print Assumptions C42_default_num_qubits.

(** Overlapping indices, indices that are too large and several targets are refused. *)
Theorem C42_overlap_raises :
  forall (K : cring) (control target : list Z) (d : N) (u : N -> N -> K) (nq : option Z) (q : Z),
    In q control -> In q target -> build_controlled_unitary K control target d u nq = Err ValueError.
Proof. exact bcu_overlap. Qed.
Print Assumptions C42_overlap_raises.

Theorem C42_too_large_raises :
  forall (K : cring) (control target : list Z) (d : N) (u : N -> N -> K) (n q : Z),
    In q (control ++ target) -> (n <= q)%Z ->
    build_controlled_unitary K control target d u (Some n) = Err ValueError.
Proof. exact bcu_too_large. Qed.
Print Assumptions C42_too_large_raises.

Theorem C42_several_targets_raise :
  forall (K : cring) (control target : list Z) (d : N) (u : N -> N -> K) (nq : option Z),
    (forall q, In q control -> In q target -> False) -> control ++ target <> [] ->
    (forall n, nq = Some n -> forall q, In q (control ++ target) -> (q < n)%Z) ->
    length target <> 1%nat ->
    build_controlled_unitary K control target d u nq = Err NotImplementedError.
Proof. exact bcu_targets. Qed.
Print Assumptions C42_several_targets_raise.

Definition xz : N -> N -> Zcring := fun i j => if i =? j then 0%Z else 1%Z.

(** Three qubits, control 2, target 0. *)
Example C42_example :
  (forall q, In q [0; 2] -> q < 3) /\ NoDup [0; 2] /\
  match build_controlled_unitary Zcring [2%Z] [0%Z] 2 xz (Some 3%Z) with
  | Ok (n, M) => (n, map (fun i => M i (if i =? 1 then 5 else i)) (Nrange 8)) = (3, [1; 1; 1; 0; 1; 0; 1; 0])%Z
  | Err _ => False
  end.
Proof.
  split; [intros q [<-|[<-|[]]]; lia|]. split; [repeat constructor; simpl; intuition discriminate|].
  vm_compute. reflexivity.
Qed.

(** C43: for one-qubit gates and gates with one or two controls, without conditions and with target
    gates that have a class-level matrix, build_unitary is the ordered product of the operators and its first column is
    the simulated state.  Missing: parametric controlled gates. *)
Theorem C43_build_unitary_partial :
  forall (K : cring) (U : Type) (gtb : K -> U -> bool) (is0 : K -> bool) (invsqrt : K -> K) (rnd : nat -> U)
         (c : scirc K) (xs : list (uop K)) (m : SimModel.mem K),
    wf_circ c -> Forall2 seen_as (sc_ops K c) xs -> (forall o, In o (sc_ops K c) -> so_cond K o = []) ->
    num_qubits K c <= 30 ->
    exists M s, build_unitary K (sc_qubits K c) xs = Ok M /\
      simulate K U gtb is0 invsqrt rnd c false false m = (m, Ok (SVec K s)) /\
      (forall i, i < 2 ^ num_qubits K c -> M i 0 = s i) /\
      forall v, exists w, runs false c (m_bits K m) (sc_ops K c) v w /\
        forall i, i < 2 ^ num_qubits K c -> mat_vec (num_qubits K c) M v i = w i.
Proof. exact build_unitary_simulates. Qed.
Print Assumptions C43_build_unitary_partial.

Definition two_gates : scirc Zcring := mkScirc Zcring [5; 6]%nat
  [mkSop Zcring (KOther Zcring 1 xz) (Some [5%nat]) []; mkSop Zcring (KControlled Zcring 1 2 xz) (Some [5; 6]%nat) []].

Example C43_example :
  wf_circ two_gates /\
  Forall2 seen_as (sc_ops Zcring two_gates) [USingle Zcring 1 xz (Some [5%nat]); UControlled Zcring 2 (Some xz) [5%nat] [6%nat]].
Proof.
  split; [|repeat constructor].
  split; [repeat constructor; simpl; intuition discriminate|]. split; [discriminate|].
  intros o H. cbn in H. destruct H as [<-|[<-|[]]]; (eexists; split; [reflexivity|]; split;
    [intros q; cbn; intuition subst; auto|split;
    [intros _; repeat constructor; simpl; intuition discriminate|split;
    [intros k Hk; injection Hk as <-; reflexivity|cbn; auto]]]).
Qed.

(** C43 is false for CRX: the simulator accepts it, build_unitary raises TypeError. *)
Theorem C43_parametric_controlled_refuted :
  exists c : scirc Ccring, wf_circ c /\ sc_ops Ccring c = [mkSop Ccring (gate_kind (GC (GRX 1%R))) (Some [0; 1]%nat) []] /\
    (forall rnd m, exists w, simulate_C rnd c false false m = (m, Ok (SVec Ccring w))) /\
    build_unitary Ccring (sc_qubits Ccring c) [UControlled Ccring 2 None [0%nat] [1%nat]] = Err TypeError.
Proof. exact crx_no_unitary. Qed.
Print Assumptions C43_parametric_controlled_refuted.

(** C43 is false with conditions: a conditional X whose bit is 0 is not simulated, but it is in the matrix. *)
Theorem C43_condition_refuted :
  exists (c : scirc Zcring) (xs : list (uop Zcring)) (m : SimModel.mem Zcring) (M : N -> N -> Zcring) (w : N -> Zcring),
    wf_circ c /\ Forall2 seen_as (sc_ops Zcring c) xs /\ build_unitary Zcring (sc_qubits Zcring c) xs = Ok M /\
    simulate Zcring unit (fun _ _ => true) (fun _ => false) (fun x => x) (fun _ => tt) c false false m = (m, Ok (SVec Zcring w)) /\
    M 0 0 <> w 0.
Proof.
  exists (mkScirc Zcring [0%nat] [mkSop Zcring (KOther Zcring 1 xz) (Some [0%nat]) [3%nat]]),
         [USingle Zcring 1 xz (Some [0%nat])],
         (mkMem Zcring (fun _ => Some false) 0 (fun _ => None) (fun _ => []) 0).
  eexists _, _. split; [|split; [repeat constructor|split; [reflexivity|split; [reflexivity|vm_compute; discriminate]]]].
  split; [repeat constructor; simpl; intuition discriminate|]. split; [discriminate|].
  intros o [<-|[]]. exists [0%nat]. split; [reflexivity|]. split; [intros q Hq; exact Hq|].
  split; [intros _; repeat constructor; simpl; intuition discriminate|].
  split; [intros k Hk; injection Hk as <-; reflexivity|reflexivity].
Qed.
Print Assumptions C43_condition_refuted.

(** C44: a call returns the matrix of the current circuit when the circuit has not been edited since
    the first call on it, in every history of edits and calls; in general it returns the
    matrix of some earlier state of the circuit.  Missing: edits between calls. *)
Theorem C44_unedited_partial :
  forall (A M : Type) (build : A -> res M) (maxsize : nat) (f : nat -> A) (evs1 evs2 : list (event A)) (c : nat),
    ~ In (Build A c) evs1 -> (forall a, ~ In (Edit A c a) evs2) ->
    let s := history A M build maxsize (evs1 ++ evs2) (start A M f) in
    snd (build_call A M build maxsize c s) = build (contents A M s c).
Proof. exact cache_unedited. Qed.
Print Assumptions C44_unedited_partial.

Theorem C44_earlier_state_partial :
  forall (A M : Type) (build : A -> res M) (maxsize : nat) (f : nat -> A) (evs : list (event A)) (c : nat) (m : M),
    snd (build_call A M build maxsize c (history A M build maxsize evs (start A M f))) = Ok m ->
    exists a, was A M build maxsize f evs c a /\ build a = Ok m.
Proof. exact cache_some_state. Qed.
Print Assumptions C44_earlier_state_partial.

Example C44_example :
  ~ In (Build nat 1%nat) [Build nat 0%nat; Edit nat 1%nat 5%nat] /\
  forall a, ~ In (Edit nat 1%nat a) [Build nat 1%nat; Edit nat 0%nat 3%nat].
Proof. split; [|intros a]; simpl; intuition discriminate. Qed.

(** C44 is false: build_unitary on an empty circuit, an X appended, build_unitary again returns the
    identity. *)
Theorem C44_stale_refuted :
  exists (ops : list (uop Zcring)) (M M' : N -> N -> Zcring),
    let build := build_unitary Zcring [0%nat] in
    let s := history _ _ build 128 [Build _ 0%nat; Edit _ 0%nat ops] (start _ _ (fun _ => [])) in
    contents _ _ s 0%nat = ops /\ snd (build_call _ _ build 128 0%nat s) = Ok M /\ build ops = Ok M' /\
    M 0 0 <> M' 0 0.
Proof.
  exists [USingle Zcring 1 xz (Some [0%nat])]. eexists _, _. cbv zeta.
  split; [reflexivity|]. split; [reflexivity|]. split; [reflexivity|]. vm_compute. discriminate.
Qed.
Print Assumptions C44_stale_refuted.

(** C78: circuits with measurements and conditional operations, as a whole. *)
From Coq Require Import List NArith ZArith Arith String Bool Lia Reals Lra.
From Verif Require Import Py CRing Cplx KernelModel KernelSpec SimModel SimSpec SimReal SampleSpec StateModel GateModel
  RegisterModel WorldModel WorldSpec WorldSpec4 WorldInv WorldInv7 WorldCheck LinkModel LinkSpec SessionModel SessionSpec
  PropsLink PropsSession BranchSpec BranchProofs BranchProofs3.
Import ListNotations.
Local Open Scope nat_scope.

(** A simulation takes one of the branches of the circuit.  Which one is decided by boxes of random numbers, one for each
    list of outcomes, whose volumes are the weights of the branches; the bits and, scaled, the state are those of the
    branch. *)
Theorem C78_branches :
  forall c (m : SimModel.mem Ccring), wf_circ c -> unitary_circ c -> (SimModel.num_qubits Ccring c <= 30)%N ->
  let n := SimModel.num_qubits Ccring c in
  let possible h bits w := branch c (sc_ops Ccring c) h (m_bits Ccring m) (zero_state Ccring) bits w in
  exists B : list bool -> box,
    (forall h bits w, possible h bits w ->
       List.length (B h) = List.length h /\ in_unit (B h) /\ volume (B h) = weight n w /\
       forall rnd, (forall k, uniform (rnd k)) -> inside (map rnd (seq (m_pos Ccring m) (List.length h))) (B h) ->
         (0 < weight n w)%R /\ exists m' a, simulate_C rnd c false false m = (m', Ok (SVec Ccring a)) /\
           (forall b, m_bits Ccring m' b = bits b) /\ m_pos Ccring m' = m_pos Ccring m + List.length h /\
           forall i, (i < 2 ^ n)%N -> a i = scaled n w i) /\
    (forall rnd, (forall k, uniform (rnd k)) -> exists h bits w, possible h bits w /\
       inside (map rnd (seq (m_pos Ccring m) (List.length h))) (B h) /\
       forall h' bits' w', possible h' bits' w' -> inside (map rnd (seq (m_pos Ccring m) (List.length h'))) (B h') -> h' = h).
Proof. exact simulate_branches. Qed.
Print Assumptions C78_branches.

(** There are finitely many branches, and their weights sum to 1. *)
Theorem C78_total :
  forall c bits, wf_circ c -> unitary_circ c ->
  let possible h bits' w := branch c (sc_ops Ccring c) h bits (zero_state Ccring) bits' w in
  exists l : list (list bool * R),
    NoDup (map fst l) /\ (forall h, In h (map fst l) <-> exists bits' w, possible h bits' w) /\
    (forall h p, In (h, p) l -> forall bits' w, possible h bits' w -> p = weight (SimModel.num_qubits Ccring c) w) /\ Rsum l snd = 1%R.
Proof. exact simulate_total. Qed.
Print Assumptions C78_total.

(** The outcomes determine the bits and the state. *)
Theorem C78_determined :
  forall c h bits, wf_circ c -> forall v bits1 w1 bits2 w2, branch c (sc_ops Ccring c) h bits v bits1 w1 -> branch c (sc_ops Ccring c) h bits v bits2 w2 ->
  (forall b, bits2 b = bits1 b) /\ forall i, (i < 2 ^ SimModel.num_qubits Ccring c)%N -> w2 i = w1 i.
Proof. exact branch_same. Qed.
Print Assumptions C78_determined.

(** The same for every simulation in a program. *)
Theorem C78_program_partial :
  forall ptrue peqb extra p (s : session) c x,
    sexecutes ptrue peqb (own_ok R) p (begin (library_classes ++ extra)%list) ->
    svisits ptrue peqb p (begin (library_classes ++ extra)%list) s -> small R (s_w s) ->
    nth_error (w_circ (s_w s)) c = Some x ->
    (forall o y, In o (c_ops x) -> nth_error (w_op (s_w s)) o = Some y -> ready (s_w s) x o y) ->
    let n := List.length (circuit_qubits x) in 1 <= n -> n <= 30 ->
    exists sc, seen (s_w s) c = Some sc /\ circuit_qubits x = map IQubit (sc_qubits Ccring sc) /\
      Forall2 (shown (s_w s)) (c_ops x) (sc_ops Ccring sc) /\
      let possible h bits w := branch sc (sc_ops Ccring sc) h (bit_value R (s_w s)) (zero_state Ccring) bits w in
      (exists l : list (list bool * R), NoDup (map fst l) /\ (forall h, In h (map fst l) <-> exists bits w, possible h bits w) /\
         (forall h q, In (h, q) l -> forall bits w, possible h bits w -> q = weight (N.of_nat n) w) /\ Rsum l snd = 1%R) /\
      exists B : list bool -> box,
        (forall h bits w, possible h bits w ->
           List.length (B h) = List.length h /\ in_unit (B h) /\ volume (B h) = weight (N.of_nat n) w /\
           forall rnd, (forall k, uniform (rnd k)) -> inside (map rnd (seq 0 (List.length h))) (B h) ->
             (0 < weight (N.of_nat n) w)%R /\ exists s' a, sim c false false rnd s = (s', Ok tt) /\
               s_st s' c = mkCst (Some (mkArr [2 ^ N.of_nat n]%N a)) None /\
               (forall b, b < List.length (w_bit (s_w s)) -> bit_value R (s_w s') b = bits b) /\
               forall i, (i < 2 ^ N.of_nat n)%N -> a i = scaled (N.of_nat n) w i) /\
        (forall rnd, (forall k, uniform (rnd k)) -> exists h bits w, possible h bits w /\
           inside (map rnd (seq 0 (List.length h))) (B h) /\
           forall h' bits' w', possible h' bits' w' -> inside (map rnd (seq 0 (List.length h'))) (B h') -> h' = h).
Proof. exact session_branches. Qed.
Print Assumptions C78_program_partial.

(** ** The program of C76_case: Hadamard on the first qubit, which is measured; X on the second if the outcome is 1.
    Both outcomes have weight 1/2, and the second qubit shows the outcome too. *)
Definition fed_circ : scirc Ccring := mkScirc Ccring [0; 1]
  [mkSop Ccring (gate_kind (GOne GHadamard)) (Some [0]) []; mkSop Ccring (KMeasure Ccring 1 (Some [0])) (Some [0]) [];
   mkSop Ccring (gate_kind (GOne GX)) (Some [1]) [0]].
Definition at_one (k : N) (i : N) : C := if (i =? k)%N then RtoC (sqrt 2 / 2) else C0.

Definition half_state (i : N) : C := if (i =? 0)%N then RtoC (sqrt 2 / 2) else if (i =? 2)%N then RtoC (sqrt 2 / 2) else C0.
Lemma four i : (i < 2 ^ 2)%N -> i = 0%N \/ i = 1%N \/ i = 2%N \/ i = 3%N.
Proof. change (2 ^ 2)%N with 4%N. lia. Qed.

Example C78_case :
  (exists x, nth_error (w_circ (s_w fed)) 0 = Some x /\ c_ops x = [0; 1; 2]) /\ seen (s_w fed) 0 = Some fed_circ /\
  forall o : bool, exists bits, branch fed_circ (sc_ops Ccring fed_circ) [o] (bit_value R (s_w fed)) (zero_state Ccring) bits (at_one (if o then 3 else 0)) /\
    bits 0 = Some o /\ weight 2 (at_one (if o then 3 else 0)) = (1 / 2)%R.
Proof.
  assert (W : forall k, (k < 4)%N -> weight 2 (at_one k) = (1 / 2)%R).
  { assert (Q : (sqrt 2 / 2 * (sqrt 2 / 2) = 1 / 2)%R) by (pose proof (sqrt_sqrt 2 ltac:(lra)); lra).
    intros k Hk. unfold weight. change (Nrange (2 ^ 2)) with [0; 1; 2; 3]%N. unfold Rsum, at_one. cbn [fold_right].
    assert (K : k = 0%N \/ k = 1%N \/ k = 2%N \/ k = 3%N) by lia. destruct K as [->|[->|[->| ->]]]; cbn [N.eqb Pos.eqb]; unfold Cnorm2, RtoC, C0, Re, Im; cbn [fst snd]; lra. }
  split; [eexists; rewrite fed_eq; split; reflexivity|]. split; [rewrite fed_eq; reflexivity|].
  intros o. exists (recorded (Some [0]) [o] (bit_value R (s_w fed))). split; [|split; [reflexivity|destruct o; apply W; lia]].
  apply branch_gate with (ts := [0%N]) (v' := half_state).
  - intros (b & [] & _).
  - reflexivity.
  - exists [0]. split; [reflexivity|]. repeat constructor.
  - intros i Hi. destruct (four i Hi) as [->|[->|[->| ->]]]; cbv -[IZR Rmult Rplus Rminus Ropp sqrt Rinv Rdiv]; f_equal; lra.
  - change [o] with ([o] ++ [])%list. apply branch_measure with (mid := 1) (store := Some [0]) (ts := [0%N]) (v' := at_one (if o then 2 else 0)).
    + intros (b & [] & _).
    + reflexivity.
    + exists [0]. split; [reflexivity|]. repeat constructor.
    + reflexivity.
    + intros i Hi. destruct o; destruct (four i Hi) as [->|[->|[->| ->]]]; reflexivity.
    + destruct o.
      * apply branch_gate with (ts := [1%N]) (v' := at_one 3).
        -- intros (b & [<-|[]] & H). discriminate H.
        -- reflexivity.
        -- exists [1]. split; [reflexivity|]. repeat constructor.
        -- intros i Hi. destruct (four i Hi) as [->|[->|[->| ->]]]; cbv -[IZR Rmult Rplus Rminus Ropp sqrt Rinv Rdiv]; f_equal; lra.
        -- apply branch_end; reflexivity.
      * apply branch_blocked; [exists 0; split; [now left|reflexivity]|]. apply branch_end; reflexivity.
Qed.

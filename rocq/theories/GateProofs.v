(** Proofs about the gate matrices. *)
From Coq Require Import List ZArith NArith Bool Reals Lra Lia.
From Verif Require Import Py CRing Cplx KernelModel KernelSpec KernelBits KernelProofs KernelProofs2
  SimModel SimSpec SimProofs SimProofs2 UnitaryModel UnitarySpec UnitaryProofs UnitaryProofs2 GateModel.
Import ListNotations.
Local Open Scope R_scope.

(** ** Unitarity *)
Definition adjoint (M : cmat) : cmat := fun i j => Cconj (M j i).

Lemma unitary2 (M : cmat) :
  (forall i j, (i < 2)%N -> (j < 2)%N ->
     Cadd (Cmul (Cconj (M 0%N i)) (M 0%N j)) (Cmul (Cconj (M 1%N i)) (M 1%N j)) = if (i =? j)%N then C1 else C0) ->
  @unitary Ccring 2 M.
Proof.
  intros H i j Hi Hj. change (Nrange 2) with [0%N; 1%N].
  transitivity (Cadd (Cmul (Cconj (M 0%N i)) (M 0%N j)) (Cmul (Cconj (M 1%N i)) (M 1%N j))).
  - simpl. ceq; ring.
  - now rewrite H.
Qed.

Lemma two_cases i : (i < 2)%N -> i = 0%N \/ i = 1%N. Proof. lia. Qed.

Lemma sc (x : R) : sin x * sin x = 1 - cos x * cos x.
Proof. pose proof (sin2_cos2 x). unfold Rsqr in *. lra. Qed.

Lemma half2 : sqrt 2 / 2 * (sqrt 2 / 2) = 1 / 2.
Proof. assert (sqrt 2 * sqrt 2 = 2) by (apply sqrt_sqrt; lra). nra. Qed.

Ltac csimp := unfold Cscale, lit, Cexp; simpl;
  unfold Cadd, Cmul, Cconj, Copp, RtoC, C0, C1, Ci, Re, Im; simpl.

Lemma cexp_norm x : Cmul (Cconj (Cexp x)) (Cexp x) = C1.
Proof. csimp. f_equal; [pose proof (sc x); lra|ring]. Qed.

Ltac norm_half :=
  repeat match goal with
  | |- context [- ?x / 2] => replace (- x / 2) with (- (x / 2)) by field
  | |- context [- (1 / 2) * ?x] => replace (- (1 / 2) * x) with (- (1 / 2 * x)) by field
  end; rewrite ?cos_neg, ?sin_neg.

Ltac trig := norm_half;
  repeat match goal with |- context [sin ?x] =>
      lazymatch goal with H : _ = cos x |- _ => fail | _ =>
        let H := fresh "Hsc" in pose proof (sc x) as H;
        let s := fresh "s" in let c := fresh "c" in
        remember (sin x) as s; remember (cos x) as c end end.

Lemma matrix1_unitary g : @unitary Ccring 2 (matrix1 g).
Proof.
  apply unitary2. intros i j Hi Hj.
  destruct (two_cases i Hi) as [->| ->], (two_cases j Hj) as [->| ->]; destruct g;
    unfold matrix1; cbn [N.eqb];
    try (csimp; f_equal; ring);
    try (csimp; f_equal; try ring; pose proof half2; nra);
    csimp; trig; f_equal;
    first [ring | (ring [Hsc]) | (ring [Hsc Hsc0]) | (ring [Hsc Hsc0 Hsc1]) | idtac].
Qed.

Lemma matrix1_unitary_adj g : @unitary Ccring 2 (adjoint (matrix1 g)).
Proof.
  apply unitary2. intros i j Hi Hj.
  destruct (two_cases i Hi) as [->| ->], (two_cases j Hj) as [->| ->]; destruct g;
    unfold matrix1, adjoint; cbn [N.eqb];
    try (csimp; f_equal; ring);
    try (csimp; f_equal; try ring; pose proof half2; nra);
    csimp; trig; f_equal;
    first [ring | (ring [Hsc]) | (ring [Hsc Hsc0]) | (ring [Hsc Hsc0 Hsc1])].
Qed.

Section Ctrl.
Variable K : cring.
Add Ring KringG : (r_theory K).
Local Open Scope N_scope.

Lemma mat_vec_basis n (M : N -> N -> K) i j : j < 2 ^ n -> mat_vec n M (basis j) i = M i j.
Proof.
  intros Hj. unfold mat_vec, basis. rewrite (sumf_single K _ _ j).
  - rewrite N.eqb_refl. ring.
  - apply NoDup_Nrange.
  - now apply In_Nrange.
  - intros k _ Hk. destruct (N.eqb_spec k j); [contradiction|]. ring.
Qed.

Lemma ctrl_unitary n cs t (u : N -> N -> K) : (forall q, In q (t :: cs) -> q < n) -> NoDup (t :: cs) ->
  unitary 2 u -> unitary (2 ^ n) (ctrl_entry n cs t u).
Proof.
  intros Hlt Hnd Hu i j Hi Hj.
  transitivity (inner n (op_apply false n u [t] cs (basis i)) (op_apply false n u [t] cs (basis j))).
  - apply sumf_ext. intros s Hs. apply In_Nrange in Hs.
    rewrite <- !ctrl_entry_op by (auto; apply Hlt; now left). now rewrite !mat_vec_basis.
  - rewrite op_apply_inner; auto.
    unfold inner, basis. rewrite (sumf_single K _ _ i).
    + rewrite N.eqb_refl, rconj_1. destruct (i =? j); ring.
    + apply NoDup_Nrange.
    + now apply In_Nrange.
    + intros k _ Hk. destruct (N.eqb_spec k i); [contradiction|]. rewrite rconj_0. ring.
Qed.

Lemma op_apply_comp le n ts cs (A B : N -> N -> K) v i :
  (forall q, In q (ts ++ cs) -> q < n) -> NoDup (ts ++ cs) -> i < 2 ^ n ->
  op_apply le n A ts cs (op_apply le n B ts cs v) i
  = op_apply le n (matmul K (2 ^ N.of_nat (length ts)) A B) ts cs v i.
Proof.
  intros Hlt Hnd Hi.
  destruct (forallb (qbit le n i) cs) eqn:Ec.
  - destruct (state_index_cover (mkParams le n ts cs) Hlt Hnd i Hi Ec) as (b & Hb & E).
    assert (Hs : read le n i ts < size (mkParams le n ts cs)).
    { unfold size, nt. rewrite N.shiftl_1_l. exact (read_lt (mkParams le n ts cs) ts i). }
    set (s := read le n i ts) in *. change (state_index (mkParams le n ts cs) b s = i) in E. rewrite <- E.
    rewrite !(op_apply_block K le n ts cs Hlt Hnd) by auto.
    unfold matmul.
    transitivity (sumf (Nrange (size (mkParams le n ts cs))) (fun t => sumf (Nrange (size (mkParams le n ts cs)))
       (fun k => rmul (A s t) (rmul (B t k) (v (state_index (mkParams le n ts cs) b k)))))).
    + apply sumf_ext. intros t Ht. apply In_Nrange in Ht. rewrite (op_apply_block K le n ts cs Hlt Hnd) by auto.
      symmetry. apply sumf_scale.
    + rewrite sumf_swap. apply sumf_ext. intros k _.
      assert (Esz : size (mkParams le n ts cs) = 2 ^ N.of_nat (length ts)).
      { unfold size, nt. now rewrite N.shiftl_1_l. }
      rewrite Esz. rewrite <- sumf_scale_r. apply sumf_ext. intros t _. ring.
  - unfold op_apply. now rewrite Ec.
Qed.
End Ctrl.

(** ** Controlled gates *)
Lemma zrange_N a b : (a <= b)%nat -> zrange a b = map Z.of_N (map N.of_nat (seq a (b - a))).
Proof. intros _. unfold zrange. rewrite map_map. apply map_ext. intros k. lia. Qed.

Theorem controlled_matrix_correct par nc u a : (par = true -> a <> OnClass) ->
  exists M, controlled_matrix par nc 1 2 u None a = Ok (Some (Z.of_nat (nc + 1), M)) /\
    forall i j, (i < 2 ^ N.of_nat (nc + 1))%N -> (j < 2 ^ N.of_nat (nc + 1))%N ->
      M i j = @ctrl_entry Ccring (N.of_nat (nc + 1)) (map N.of_nat (seq 0 nc)) (N.of_nat nc) u i j.
Proof.
  intros Ha.
  destruct (bcu_correct Ccring (N.of_nat (nc + 1)) (map N.of_nat (seq 0 nc)) (N.of_nat nc) u) as (M & E & HM).
  - intros q [<-|Hq]; [lia|]. apply in_map_iff in Hq. destruct Hq as (k & <- & Hk). apply in_seq in Hk. lia.
  - change (NoDup (map N.of_nat (nc :: seq 0 nc))). apply FinFun.Injective_map_NoDup.
    + intros x y. apply Nat2N.inj.
    + constructor; [rewrite in_seq; lia|apply seq_NoDup].
  - exists M. split; [|exact HM]. unfold controlled_matrix.
    assert (E1 : par && match a with OnClass => true | _ => false end = false).
    { destruct par; [|reflexivity]. destruct a; [|reflexivity]. exfalso. now apply Ha. }
    rewrite E1, andb_false_r. cbn [bind fst snd].
    rewrite (zrange_N 0 nc), (zrange_N nc (nc + 1)) by lia.
    replace (nc - 0)%nat with nc by lia. replace (nc + 1 - nc)%nat with 1%nat by lia. cbn [seq map].
    replace (Z.of_nat (nc + 1)) with (Z.of_N (N.of_nat (nc + 1))) by lia. rewrite E. reflexivity.
Qed.

Lemma gate_matrix_GC g : exists M, gate_matrix (GC g) = Ok (4%N, M) /\
  forall i j, (i < 4)%N -> (j < 4)%N -> M i j = @ctrl_entry Ccring 2 [0%N] 1 (matrix1 g) i j.
Proof.
  destruct (controlled_matrix_correct (parametric1 g) 1 (matrix1 g) (OnInstance None None)) as (M & E & HM);
    [discriminate|].
  exists M. split; [|exact HM]. unfold gate_matrix. rewrite E. reflexivity.
Qed.

Lemma unitary_ext sz (A B : cmat) : (forall i j, (i < sz)%N -> (j < sz)%N -> A i j = B i j) ->
  @unitary Ccring sz A -> @unitary Ccring sz B.
Proof.
  intros H HA i j Hi Hj. rewrite <- (HA i j Hi Hj). apply sumf_ext. intros s Hs. apply In_Nrange in Hs.
  now rewrite !H.
Qed.

Lemma ctrl_adjoint n cs t (u : cmat) i j : (t < n)%N -> (forall q, In q (t :: cs) -> (q < n)%N) -> NoDup (t :: cs) ->
  adjoint (@ctrl_entry Ccring n cs t u) i j = @ctrl_entry Ccring n cs t (adjoint u) i j.
Proof.
  intros Ht Hlt Hnd. unfold adjoint, ctrl_entry.
  rewrite (N.eqb_sym (qset false n j t false)), (N.eqb_sym j i).
  destruct (N.eqb_spec (qset false n i t false) (qset false n j t false)) as [E|E].
  - assert (Hc : forallb (qbit false n j) cs = forallb (qbit false n i) cs).
    { clear -E Hnd Hlt. inversion Hnd as [|? ? Hni Hnd']; subst. clear Hnd Hnd'.
      induction cs as [|c cs IH]; [reflexivity|]. cbn [forallb]. f_equal.
      - assert (Hct : c <> t) by (intros ->; apply Hni; now left).
        assert (Hpos : bitpos false n c <> bitpos false n t).
        { intros Hb. apply Hct. apply (bitpos_inj false n); auto; apply Hlt; simpl; auto. }
        assert (E' : N.testbit (qset false n i t false) (bitpos false n c) = N.testbit (qset false n j t false) (bitpos false n c)) by now rewrite E.
        rewrite !qset_testbit in E'. destruct (N.eqb_spec (bitpos false n c) (bitpos false n t)); [contradiction|].
        symmetry. exact E'.
      - apply IH; [intros q [Hq|Hq]; apply Hlt; simpl; auto|]. intros Hin. apply Hni. now right. }
    rewrite Hc. destruct (forallb (qbit false n i) cs); [reflexivity|].
    destruct (i =? j)%N; simpl; ceq; ring.
  - destruct (N.eqb_spec i j) as [->|Hij]; [congruence|].
    destruct (forallb (qbit false n j) cs), (forallb (qbit false n i) cs); simpl; ceq; ring.
Qed.

Lemma lt4 i : (i < 4)%N -> In i [0; 1; 2; 3]%N. Proof. intros H. simpl. lia. Qed.
Lemma lt8 i : (i < 8)%N -> In i [0; 1; 2; 3; 4; 5; 6; 7]%N. Proof. intros H. simpl. lia. Qed.

Definition good_unitary (d : N) (M : cmat) : Prop := @unitary Ccring d M /\ @unitary Ccring d (adjoint M).

(** A matrix that permutes the basis by an involution. *)
Definition involutes (sz : N) (M : cmat) (f : N -> N) : Prop :=
  forall i, (i < sz)%N -> (f i < sz)%N /\ f (f i) = i /\ forall j, (j < sz)%N -> M i j = if (j =? f i)%N then C1 else C0.

Lemma involutes_mat_vec k M f v i : involutes (2 ^ k) M f -> (i < 2 ^ k)%N ->
  @mat_vec Ccring k M v i = v (f i).
Proof.
  intros H Hi. destruct (H i Hi) as (Hf & _ & HM). unfold mat_vec.
  rewrite (sumf_single Ccring _ _ (f i)).
  - rewrite HM, N.eqb_refl by exact Hf. cbn. ceq; ring.
  - apply NoDup_Nrange.
  - now apply In_Nrange.
  - intros j Hj Hne. apply In_Nrange in Hj. rewrite HM by exact Hj.
    destruct (N.eqb_spec j (f i)); [contradiction|]. cbn. ceq; ring.
Qed.

Lemma involutes_unitary sz M f : involutes sz M f -> good_unitary sz M.
Proof.
  intros H.
  assert (Hinj : forall i j, (i < sz)%N -> (j < sz)%N -> (j =? f i)%N = (i =? f j)%N).
  { intros i j Hi Hj. destruct (N.eqb_spec j (f i)) as [E|E], (N.eqb_spec i (f j)) as [E'|E']; auto; exfalso.
    - apply E'. subst j. symmetry. apply (H i Hi).
    - apply E. subst i. symmetry. apply (H j Hj). }
  split; intros i j Hi Hj.
  - rewrite (sumf_single Ccring _ _ (f i)).
    + destruct (H i Hi) as (Hf & Hff & _). destruct (H _ Hf) as (_ & _ & HM).
      rewrite !HM, Hff, N.eqb_refl by auto. rewrite (N.eqb_sym j i). destruct (i =? j)%N; cbn; ceq; ring.
    + apply NoDup_Nrange.
    + apply In_Nrange. apply (H i Hi).
    + intros s Hs Hne. apply In_Nrange in Hs. destruct (H s Hs) as (_ & _ & HM). rewrite (HM i Hi).
      rewrite (Hinj s i) by auto. destruct (N.eqb_spec s (f i)); [contradiction|]. cbn. ceq; ring.
  - unfold adjoint. rewrite (sumf_single Ccring _ _ (f i)).
    + destruct (H i Hi) as (Hf & Hff & HM). destruct (H j Hj) as (_ & _ & HM').
      rewrite HM, HM', N.eqb_refl by auto. rewrite (Hinj j (f i)), Hff by auto.
      rewrite (N.eqb_sym j i). destruct (i =? j)%N; cbn; ceq; ring.
    + apply NoDup_Nrange.
    + apply In_Nrange. apply (H i Hi).
    + intros s Hs Hne. apply In_Nrange in Hs. destruct (H i Hi) as (_ & _ & HM). rewrite (HM s Hs).
      destruct (N.eqb_spec s (f i)); [contradiction|]. cbn. ceq; ring.
Qed.

Definition swap_map (i : N) : N := match i with 1 => 2 | 2 => 1 | _ => i end%N.
Definition cswap_map (i : N) : N := match i with 5 => 6 | 6 => 5 | _ => i end%N.
Definition ccx_map (i : N) : N := match i with 6 => 7 | 7 => 6 | _ => i end%N.

Lemma swap_involutes : involutes 4 swap_matrix swap_map.
Proof.
  intros i Hi. apply lt4 in Hi. simpl in Hi. repeat (destruct Hi as [<-|Hi]); try destruct Hi;
  (split; [reflexivity|split; [reflexivity|]]; intros j Hj; apply lt4 in Hj; simpl in Hj;
   repeat (destruct Hj as [<-|Hj]); try destruct Hj; reflexivity).
Qed.
Lemma cswap_involutes : involutes 8 cswap_matrix cswap_map.
Proof.
  intros i Hi. apply lt8 in Hi. simpl in Hi. repeat (destruct Hi as [<-|Hi]); try destruct Hi;
  (split; [reflexivity|split; [reflexivity|]]; intros j Hj; apply lt8 in Hj; simpl in Hj;
   repeat (destruct Hj as [<-|Hj]); try destruct Hj; reflexivity).
Qed.
Lemma ccx_involutes : involutes 8 ccx_matrix ccx_map.
Proof.
  intros i Hi. apply lt8 in Hi. simpl in Hi. repeat (destruct Hi as [<-|Hi]); try destruct Hi;
  (split; [reflexivity|split; [reflexivity|]]; intros j Hj; apply lt8 in Hj; simpl in Hj;
   repeat (destruct Hj as [<-|Hj]); try destruct Hj; reflexivity).
Qed.

Theorem gate_unitary g : exists d M, gate_matrix g = Ok (d, M) /\ good_unitary d M.
Proof.
  destruct g as [g|g| | |].
  - exists 2%N, (matrix1 g). split; [reflexivity|]. split; [apply matrix1_unitary|apply matrix1_unitary_adj].
  - destruct (gate_matrix_GC g) as (M & E & HM). exists 4%N, M. split; [exact E|].
    assert (Hlt : forall q, In q [1%N; 0%N] -> (q < 2)%N) by (simpl; intuition lia).
    assert (Hnd : NoDup [1%N; 0%N]) by (repeat constructor; simpl; intuition discriminate).
    split.
    + apply (unitary_ext 4 (@ctrl_entry Ccring 2 [0%N] 1 (matrix1 g))).
      { intros i j Hi Hj. now rewrite HM. }
      apply (ctrl_unitary Ccring 2 [0%N] 1); auto. apply matrix1_unitary.
    + apply (unitary_ext 4 (@ctrl_entry Ccring 2 [0%N] 1 (adjoint (matrix1 g)))).
      { intros i j Hi Hj. rewrite <- ctrl_adjoint by (auto; lia). unfold adjoint. now rewrite HM. }
      apply (ctrl_unitary Ccring 2 [0%N] 1); auto. apply matrix1_unitary_adj.
  - exists 4%N, swap_matrix. split; [reflexivity|exact (involutes_unitary _ _ _ swap_involutes)].
  - exists 8%N, cswap_matrix. split; [reflexivity|exact (involutes_unitary _ _ _ cswap_involutes)].
  - exists 8%N, ccx_matrix. split; [reflexivity|exact (involutes_unitary _ _ _ ccx_involutes)].
Qed.

Lemma gate_kind_unitary g : @unitary_kind Ccring (gate_kind g).
Proof. destruct g; simpl; auto; apply matrix1_unitary. Qed.

(** ** The matrix of a gate and its action in the simulator *)
Lemma mat_vec_ctrl g (M : cmat) v i : (i < 4)%N ->
  (forall i j, (i < 4)%N -> (j < 4)%N -> M i j = @ctrl_entry Ccring 2 [0%N] 1 (matrix1 g) i j) ->
  @mat_vec Ccring 2 M v i = @op_apply Ccring false 2 (matrix1 g) [1%N] [0%N] v i.
Proof.
  intros Hi HM. rewrite <- (ctrl_entry_op Ccring 2 [0%N] 1 (matrix1 g) v i) by lia.
  apply mat_vec_ext; [exact Hi| |reflexivity]. intros j Hj. now apply HM.
Qed.

(** The qubit positions [0 .. k-1]. *)
Definition qubits_of (g : gate) : N :=
  match g with GOne _ => 1 | GC _ | GSWAP => 2 | GCSWAP | GCCX => 3 end%N.

Theorem gate_matrix_action g (v : N -> C) : exists M,
  gate_matrix g = Ok (2 ^ qubits_of g, M)%N /\
  forall i, (i < 2 ^ qubits_of g)%N ->
    @mat_vec Ccring (qubits_of g) M v i
    = @gate_action Ccring false (qubits_of g) (gate_kind g) (Nrange (qubits_of g)) v i.
Proof.
  destruct g as [g|g| | |].
  - exists (matrix1 g). split; [reflexivity|]. intros i Hi. cbn [qubits_of gate_kind].
    change (Nrange 1) with [0%N]. cbn [gate_action].
    assert (Hi' : i = 0%N \/ i = 1%N) by (change (i < 2)%N in Hi; lia).
    destruct Hi' as [-> | ->]; reflexivity.
  - destruct (gate_matrix_GC g) as (M & E & HM). exists M. split; [exact E|]. intros i Hi.
    change (Nrange (qubits_of (GC g))) with [0%N; 1%N]. cbn [gate_kind gate_action qubits_of].
    apply mat_vec_ctrl; auto.
  - exists swap_matrix. split; [reflexivity|]. intros i Hi. cbn [qubits_of] in *.
    rewrite (involutes_mat_vec 2 swap_matrix swap_map v i swap_involutes Hi).
    change (2 ^ 2)%N with 4%N in Hi. apply lt4 in Hi. simpl in Hi.
    repeat (destruct Hi as [<-|Hi]); try destruct Hi; reflexivity.
  - exists cswap_matrix. split; [reflexivity|]. intros i Hi. cbn [qubits_of] in *.
    rewrite (involutes_mat_vec 3 cswap_matrix cswap_map v i cswap_involutes Hi).
    change (2 ^ 3)%N with 8%N in Hi. apply lt8 in Hi. simpl in Hi.
    repeat (destruct Hi as [<-|Hi]); try destruct Hi; reflexivity.
  - exists ccx_matrix. split; [reflexivity|]. intros i Hi. cbn [qubits_of] in *.
    rewrite (involutes_mat_vec 3 ccx_matrix ccx_map v i ccx_involutes Hi).
    change (2 ^ 3)%N with 8%N in Hi. apply lt8 in Hi. simpl in Hi.
    repeat (destruct Hi as [<-|Hi]); try destruct Hi; reflexivity.
Qed.

Lemma gate_dim g d M : gate_matrix g = Ok (d, M) -> d = (2 ^ qubits_of g)%N.
Proof.
  destruct g as [g|g| | |]; intros H; try (injection H as <- _; reflexivity).
  destruct (gate_matrix_GC g) as (M' & E & _). rewrite E in H. injection H as <- _. reflexivity.
Qed.

Lemma gate_unitary_full : forall g : gate, exists d M, gate_matrix g = Ok (d, M) /\ d = (2 ^ qubits_of g)%N /\
    (forall i j, (i < d)%N -> (j < d)%N ->
       @sumf Ccring N (Nrange d) (fun s => Cmul (Cconj (M s i)) (M s j)) = if (i =? j)%N then C1 else C0) /\
    (forall i j, (i < d)%N -> (j < d)%N ->
       @sumf Ccring N (Nrange d) (fun s => Cmul (M i s) (Cconj (M j s))) = if (i =? j)%N then C1 else C0).
Proof.
  intros g. destruct (gate_unitary g) as (d & M & E & H1 & H2). exists d, M.
  split; [exact E|]. split; [exact (gate_dim _ _ _ E)|]. split; [exact H1|].
  intros i j Hi Hj. transitivity (@sumf Ccring N (Nrange d) (fun s => Cmul (Cconj (adjoint M s i)) (adjoint M s j)));
    [|exact (H2 i j Hi Hj)]. apply sumf_ext. intros s _. unfold adjoint. simpl. ceq; ring.
Qed.

Lemma controlled_blocks : forall g : gate1, exists M, gate_matrix (GC g) = Ok (4%N, M) /\
    forall a b s t, (a < 2 -> b < 2 -> s < 2 -> t < 2 ->
      M (2 * a + s) (2 * b + t)
      = if a =? b then if a =? 1 then matrix1 g s t else if s =? t then C1 else C0 else C0)%N.
Proof.
  intros g. destruct (gate_matrix_GC g) as (M & E & HM). exists M. split; [exact E|].
  intros a b s t Ha Hb Hs Ht. rewrite HM by lia.
  destruct (two_cases a Ha) as [-> | ->], (two_cases b Hb) as [-> | ->],
    (two_cases s Hs) as [-> | ->], (two_cases t Ht) as [-> | ->]; reflexivity.
Qed.

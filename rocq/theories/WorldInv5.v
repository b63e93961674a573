(** Everything a program can do keeps the structure of circuits. *)
From Coq Require Import List ZArith String Bool Arith Lia.
From Verif Require Import Py RegisterModel RegisterSpec RegisterProofs WorldModel WorldSpec WorldReg WorldInv WorldInv2 WorldInv3 WorldInv4.
Import ListNotations.
Local Open Scope nat_scope.

(** ** Calls that do not touch registers *)

Section KeepAll.
Variable P : Type.
Variable ptrue : P -> bool.
Variable peqb : P -> P -> bool.
Notation world := (world P).
Notation M := (M P).
Variable I : world -> Prop.
Hypothesis I_same : forall w w', same P w w' -> I w -> I w'.
Hypothesis K_qubits : forall c, keeps P I (@qubits P c).
Hypothesis K_bits : forall c, keeps P I (@bits P c).

Ltac kp_step := first
  [ apply keeps_ret; exact I_same | apply keeps_raise; exact I_same | apply keeps_lift; exact I_same
  | apply keeps_read; exact I_same | apply keeps_get_circ; exact I_same | apply keeps_get_op; exact I_same
  | apply keeps_get_cls; exact I_same | apply keeps_get_ctx; exact I_same | apply keeps_put_op; exact I_same
  | apply keeps_upd_op; exact I_same | apply keeps_var_put; exact I_same | apply keeps_new_var; exact I_same
  | apply keeps_settle; exact I_same | apply K_qubits | apply K_bits
  | apply keeps_when; [exact I_same|] | apply keeps_iterM; [exact I_same|intros ?]
  | apply keeps_upd_circ; [exact I_same|intros ?; reflexivity|intros ?; reflexivity]
  | match goal with |- keeps _ _ (match ?b with _ => _ end) => destruct b end
  | apply keeps_bind; [|intros ?]
  | apply keeps_same; [exact I_same|intros ?; repeat split; fail] ].
Ltac kp := repeat kp_step.

Lemma k_regget l s : keeps P I (@regget P l s). Proof. unfold regget. kp. Qed.
Lemma k_get_qubit c l rl all : keeps P I (@get_qubit P c l rl all).
Proof.
  unfold get_qubit. apply keeps_bind; [kp|]. intros x. apply keeps_bind; [kp|]. intros its.
  apply keeps_same; [exact I_same|]. intros w. apply same_refl.
Qed.
Lemma k_get_bit c l rl all : keeps P I (@get_bit P c l rl all).
Proof.
  unfold get_bit. apply keeps_bind; [kp|]. intros x. apply keeps_bind; [kp|]. intros its.
  apply keeps_same; [exact I_same|]. intros w. apply same_refl.
Qed.
Lemma k_find_qubit c v : keeps P I (@find_qubit P c v). Proof. unfold find_qubit. kp. Qed.
Lemma k_find_bit c v : keeps P I (@find_bit P c v). Proof. unfold find_bit. kp. Qed.
Lemma k_lock c : keeps P I (@lock P c). Proof. unfold lock. kp. Qed.
Lemma k_unlock c : keeps P I (@unlock P c).
Proof.
  unfold unlock. apply keeps_upd_circ; [exact I_same| |]; intros x; destruct (c_par x); reflexivity.
Qed.
Lemma k_cls_num_qubits k : keeps P I (@cls_num_qubits P k). Proof. unfold cls_num_qubits. kp. Qed.
Lemma k_check_qubits k qs : keeps P I (@check_qubits P k qs).
Proof. unfold check_qubits. repeat first [apply k_cls_num_qubits|kp_step]. Qed.
Lemma k_op_eval o g : keeps P I (op_eval ptrue o g). Proof. unfold op_eval. kp. Qed.
Lemma k_check_own c v : keeps P I (@check_own P c v). Proof. unfold check_own. kp. Qed.
Lemma k_append_op c o : keeps P I (append_op ptrue c o).
Proof. unfold append_op. repeat first [apply k_op_eval|apply k_check_own|kp_step]. Qed.
Lemma k_op_init k o qs : keeps P I (op_init ptrue k o qs).
Proof. unfold op_init. repeat first [apply k_append_op|apply k_check_qubits|kp_step]. Qed.
Lemma k_check_params x ps : keeps P I (@check_params P x ps). Proof. unfold check_params. kp. Qed.
Lemma k_par_init x k o ps qs : keeps P I (par_init ptrue x k o ps qs).
Proof. unfold par_init. repeat first [apply k_check_params|apply k_op_init|kp_step]. Qed.
Lemma k_construct k ps a : keeps P I (construct ptrue k ps a).
Proof. unfold construct. repeat first [apply k_par_init|apply k_op_init|kp_step]. Qed.
Lemma k_call_op o a : keeps P I (call_op ptrue o a).
Proof. unfold call_op. repeat first [apply k_construct|kp_step]. Qed.
Lemma k_set_qubits o qs : keeps P I (@set_qubits P o qs).
Proof. unfold set_qubits. repeat first [apply k_check_qubits|kp_step]. Qed.
Lemma k_store o bs : keeps P I (@store P o bs). Proof. unfold store. kp. Qed.
Lemma k_op_eq a b : keeps P I (op_eq ptrue peqb a b). Proof. unfold op_eq. kp. Qed.
Lemma k_index_of os op : forall i, keeps P I (index_of ptrue peqb os op i).
Proof. induction os; intros i; simpl; repeat first [apply IHos|apply k_op_eq|kp_step]. Qed.
Lemma k_remove_op c op : keeps P I (remove_op ptrue peqb c op).
Proof. unfold remove_op. repeat first [apply k_index_of|kp_step]. Qed.
Lemma k_grow_vars n : forall a, keeps P I (@grow_vars P a n).
Proof. induction n; intros a; simpl; repeat first [apply IHn|kp_step]. Qed.
Lemma k_get_param c i : keeps P I (@get_param P c i).
Proof. unfold get_param. repeat first [apply k_grow_vars|kp_step]. Qed.
Lemma k_star_args l : keeps P I (@star_args P l).
Proof. unfold star_args. kp. Qed.
Lemma k_replay qm bm o : keeps P I (replay ptrue qm bm o).
Proof. unfold replay. repeat first [apply k_construct|apply k_store|apply k_star_args|kp_step]. Qed.
Lemma k_call_circuit t qs ba : keeps P I (call_circuit ptrue t qs ba).
Proof. unfold call_circuit. repeat first [apply k_replay|kp_step]. Qed.
Lemma k_set_vars vs : forall ps, keeps P I (@set_vars P vs ps).
Proof. induction vs; intros [|p ps]; simpl; repeat first [apply IHvs|kp_step]. Qed.
Lemma k_reset_variables c : keeps P I (@reset_variables P c). Proof. unfold reset_variables. kp. Qed.
Lemma k_call_parametric t ps qs ba : keeps P I (call_parametric ptrue t ps qs ba).
Proof. unfold call_parametric. repeat first [apply k_set_vars|apply k_call_circuit|kp_step]. Qed.
Lemma k_call_plain t qs ba : keeps P I (call_plain ptrue t qs ba).
Proof. unfold call_plain. repeat first [apply k_call_circuit|kp_step]. Qed.
Lemma k_eval_ops g os : forall i, keeps P I (eval_ops ptrue i g os).
Proof. induction os; intros i; simpl; repeat first [apply IHos|apply k_op_eval|kp_step]. Qed.
Lemma k_eval_circuit c g : keeps P I (eval_circuit ptrue c g).
Proof. unfold eval_circuit. repeat first [apply k_eval_ops|kp_step]. Qed.
Lemma k_context c : keeps P I (@context P c).
Proof.
  unfold context. apply keeps_same; [exact I_same|]. intros w. unfold mbind, get_circ.
  destruct (nth_error (w_circ w) c) as [x|] eqn:E; cbn; [|repeat split].
  destruct (c_ctx x); cbn; [repeat split|].
  split; [|split; [|split; reflexivity]]; cbn; eapply map_set_nth_same; eauto.
Qed.
Lemma k_ctx_enter a : keeps P I (@ctx_enter P a). Proof. unfold ctx_enter. kp. Qed.
Lemma k_ctx_exit a : keeps P I (@ctx_exit P a).
Proof.
  unfold ctx_exit. apply keeps_bind; [apply keeps_get_ctx; exact I_same|]. intros cx.
  apply keeps_bind.
  { apply keeps_upd_circ; [exact I_same| |]; intros x; destruct (c_par x); reflexivity. }
  intros _. repeat first [apply k_reset_variables|apply k_lock|kp_step].
Qed.
Lemma k_set_frozen b e : keeps P I (@set_frozen P b e).
Proof. unfold set_frozen. kp. Qed.

(** The calls that change registers or bits. *)
Definition plain_call (x : call P) : bool :=
  match x with
  | CNew _ _ _ _ | CNewQubit _ _ | CNewBit _ _ | CAddQubit _ _ _ _ | CAddBit _ _ _ _ | CAddQReg _ _ _ _ | CAddCReg _ _ _ _
  | CQRegAdd _ _ _ _ | CCRegAdd _ _ _ _ | CQRegFreeze _ _ _ | CCRegFreeze _ _ _ | CReset _ _ _
  | CBitSet _ _ _ _ | CBitReset _ _ => false
  | _ => true
  end.

Lemma k_unit_of {A} (m : M A) : keeps P I m -> keeps P I (unit_of m).
Proof. intros H. unfold unit_of. apply keeps_bind; [exact H|]. intros _. kp. Qed.

Lemma k_do_call x : plain_call x = true -> keeps P I (do_call ptrue peqb x).
Proof.
  destruct x; intros H; try discriminate H; cbn [do_call]; try apply k_unit_of;
    repeat first [apply k_get_qubit|apply k_get_bit|apply k_find_qubit|apply k_find_bit|apply k_lock|apply k_unlock
      |apply k_construct|apply k_call_op|apply k_set_qubits|apply k_store|apply k_op_eval|apply k_cls_num_qubits
      |apply k_append_op|apply k_remove_op|apply k_get_param|apply k_call_plain|apply k_call_parametric
      |apply k_eval_circuit|apply k_reset_variables|kp_step].
Qed.

(** *** Programs *)
Variable ok : world -> call P -> Prop.
Hypothesis K_grows : forall x, grows P (do_call ptrue peqb x).
Hypothesis K_call : forall w x, ok w x -> small P (fst (do_call ptrue peqb x w)) -> I w ->
  I (fst (do_call ptrue peqb x w)).

Lemma fst_finally r fin : fst (@finally P r fin) = fst (fin (fst r)).
Proof. unfold finally. destruct r as [w o]. cbn. destruct (fin w) as [w' [u|e]]; reflexivity. Qed.

Lemma run_grows p : grows P (run ptrue peqb p).
Proof.
  induction p; simpl.
  - apply grows_ret.
  - apply K_grows.
  - apply grows_bind; auto.
  - apply grows_bind; [apply k_context|]. intros a. apply grows_bind; [apply k_ctx_enter|]. intros _ w.
    rewrite fst_finally. eapply mono_trans; [apply IHp|]. apply k_ctx_exit.
  - apply grows_bind; [apply k_set_frozen|]. intros _ w.
    rewrite fst_finally. eapply mono_trans; [apply IHp|]. apply k_set_frozen.
  - intros w. simpl. apply IHp.
  - apply grows_raise.
Qed.

Lemma run_keeps p : forall w, executes P ptrue peqb ok p w -> small P (fst (run ptrue peqb p w)) -> I w ->
  I (fst (run ptrue peqb p w)).
Proof.
  induction p; simpl; intros w He Sw Hi.
  - exact Hi.
  - auto.
  - destruct He as [H1 H2]. unfold mbind in *. pose proof (IHp1 w H1) as K1.
    destruct (run ptrue peqb p1 w) as [w' [u|e]]; simpl in *; [|auto].
    apply IHp2; auto. apply K1; [|auto]. eapply small_mono; [|exact Sw]. apply run_grows.
  - unfold mbind in *. pose proof (k_context c) as [G1 K1]. specialize (G1 w). specialize (K1 w).
    destruct (context c w) as [w1 [a|e]]; simpl in *; [|auto].
    pose proof (k_ctx_enter a) as [G2 K2]. specialize (G2 w1). specialize (K2 w1).
    destruct (ctx_enter a w1) as [w2 [u|e]]; simpl in *.
    + rewrite fst_finally in *. pose proof (k_ctx_exit a) as [G3 K3].
      assert (S3 : small P (fst (run ptrue peqb p w2))) by (eapply small_mono; [apply G3|exact Sw]).
      assert (S2 : small P w2) by (eapply small_mono; [apply run_grows|exact S3]).
      assert (S1 : small P w1) by (eapply small_mono; [exact G2|exact S2]).
      apply K3; [exact Sw|]. apply IHp; auto.
    + apply K2; [auto|]. apply K1; [|auto]. eapply small_mono; [exact G2|exact Sw].
  - unfold mbind in *. pose proof (k_set_frozen true CircuitError) as [G1 K1]. specialize (G1 w). specialize (K1 w).
    destruct (set_frozen true CircuitError w) as [w1 [a|e]]; simpl in *; [|auto].
    rewrite fst_finally in *. pose proof (k_set_frozen false AttributeError) as [G3 K3].
    assert (S3 : small P (fst (run ptrue peqb p w1))) by (eapply small_mono; [apply G3|exact Sw]).
    assert (S1 : small P w1) by (eapply small_mono; [apply run_grows|exact S3]).
    apply K3; [exact Sw|]. apply IHp; auto.
  - auto.
  - exact Hi.
Qed.

Lemma visits_grows p : forall w v, visits P ptrue peqb p w v -> mono P w v.
Proof.
  assert (A : forall p w v, v = w \/ v = fst (run ptrue peqb p w) -> mono P w v).
  { intros q w v [->| ->]; [apply mono_refl|apply run_grows]. }
  induction p; intros w v Hv; simpl in Hv.
  - apply (A Skip). tauto.
  - apply (A (Do x)). tauto.
  - destruct Hv as [E|[E|[H|H]]]; [apply (A (Seq p1 p2)); auto|apply (A (Seq p1 p2)); auto|auto|].
    pose proof (run_grows p1 w) as G. destruct (run ptrue peqb p1 w) as [w' [u|e]]; [|easy].
    eapply mono_trans; [exact G|auto].
  - destruct Hv as [E|[E|H]]; [apply (A (With c p)); auto|apply (A (With c p)); auto|].
    assert (G : mono P w (fst ((let! a := context c in ctx_enter a) w))).
    { apply grows_bind; [apply k_context|]. intros a. apply k_ctx_enter. }
    match type of H with (let (_, _) := ?m w in _) => destruct (m w) as [w' [u|e]]; [|easy] end.
    eapply mono_trans; [exact G|auto].
  - destruct Hv as [E|[E|H]]; [apply (A (Frozen p)); auto|apply (A (Frozen p)); auto|].
    pose proof (k_set_frozen true CircuitError) as [G _]. specialize (G w).
    destruct (set_frozen true CircuitError w) as [w' [u|e]]; [|easy].
    eapply mono_trans; [exact G|auto].
  - destruct Hv as [E|[E|H]]; [apply (A (Try p)); auto|apply (A (Try p)); auto|auto].
  - apply (A (Raise e)). tauto.
Qed.

Lemma run_visits p : forall w v, executes P ptrue peqb ok p w -> small P v -> I w ->
  visits P ptrue peqb p w v -> I v.
Proof.
  assert (A : forall p w v, executes P ptrue peqb ok p w -> small P v -> I w ->
                v = w \/ v = fst (run ptrue peqb p w) -> I v).
  { intros q w v He Sv Hi [->| ->]; [exact Hi|now apply run_keeps]. }
  induction p; intros w v He Sv Hi Hv; pose proof (A _ w v He Sv Hi) as A'; simpl in Hv, He.
  - tauto.
  - tauto.
  - destruct Hv as [E|[E|[H|H]]]; [auto|auto|eapply IHp1; [apply He|..]; eauto|].
    destruct He as [H1 H2]. pose proof (run_keeps p1 w H1) as K.
    destruct (run ptrue peqb p1 w) as [w' [u|e]]; [|easy]. simpl in K.
    eapply IHp2; [exact H2|exact Sv| |exact H]. apply K; [|exact Hi]. eapply small_mono; [|exact Sv].
    eapply visits_grows; eauto.
  - destruct Hv as [E|[E|H]]; [auto|auto|].
    assert (K : keeps P I (let! a := context c in ctx_enter a)).
    { apply keeps_bind; [apply k_context|]. intros a. apply k_ctx_enter. }
    destruct K as [_ K]. specialize (K w).
    match type of H with (let (_, _) := ?m w in _) => destruct (m w) as [w' [u|e]]; [|easy] end.
    simpl in K. eapply IHp; [exact He|exact Sv| |exact H]. apply K; [|exact Hi]. eapply small_mono; [|exact Sv].
    eapply visits_grows; eauto.
  - destruct Hv as [E|[E|H]]; [auto|auto|].
    pose proof (k_set_frozen true CircuitError) as [_ K]. specialize (K w).
    destruct (set_frozen true CircuitError w) as [w' [u|e]]; [|easy].
    simpl in K. eapply IHp; [exact He|exact Sv| |exact H]. apply K; [|exact Hi]. eapply small_mono; [|exact Sv].
    eapply visits_grows; eauto.
  - destruct Hv as [E|[E|H]]; [auto|auto|eauto].
  - tauto.
Qed.
End KeepAll.

(** The loader step by step: entering the context, constructing an operation, leaving. *)
From Coq Require Import List ZArith String Bool Arith Lia.
From Verif Require Import Py QirModel LinkModel RegisterModel RegisterSpec RegisterProofs WorldModel WorldSpec WorldSpec4 WorldReg WorldInv WorldInv2 WorldInv3 WorldInv4 WorldWf2 WorldOps LoadModel LoadSpec.
Import ListNotations.
Local Open Scope nat_scope.

Section Steps.
Variable P : Type.
Variable ptrue : P -> bool.
Notation world := (world P).
Notation M := (WorldModel.M P).

(** In the context of the circuit. *)
Record inside (w : world) (c : nat) (x : circ) (a : nat) : Prop := {
  in_circ : nth_error (w_circ w) c = Some x;
  in_act : w_active w = Some a;
  in_exit : w_exit w = [];
  in_ctx : nth_error (w_ctx w) a = Some (c, false);
  in_own : c_ctx x = Some a;
  in_open : c_locked x = false;
  in_q : exists r, s_cache (c_q x) = Some r /\ regok r /\ contents r = circuit_qubits x;
  in_b : exists r, s_cache (c_b x) = Some r /\ regok r /\ contents r = circuit_bits x
}.

Lemma get_ctx_some a (w : world) y : nth_error (w_ctx w) a = Some y -> get_ctx a w = (w, Ok y).
Proof. intros H. unfold get_ctx. now rewrite H. Qed.
Lemma get_op_some o (w : world) y : nth_error (w_op w) o = Some y -> get_op o w = (w, Ok y).
Proof. intros H. unfold get_op. now rewrite H. Qed.
Lemma get_cls_some k (w : world) x : nth_error (w_cls w) k = Some x -> get_cls k w = (w, Ok x).
Proof. intros H. unfold get_cls. now rewrite H. Qed.
Lemma set_op_same (w : world) : set_op w (w_op w) = w.
Proof. now destruct w. Qed.

Lemma with_ctx_id x a : c_ctx x = Some a -> with_ctx x (Some a) = x.
Proof. destruct x. cbn. now intros ->. Qed.

(** The circuit as it is in its context, and the heap around it. *)
Definition opened (x : circ) (a : nat) (rq rb : register) : circ :=
  mkCirc (c_ops x) (mkSide (s_regs (c_q x)) (Some rq)) (mkSide (s_regs (c_b x)) (Some rb)) false (Some a) (c_par x) (c_vars x) (if c_par x then false else c_pfrozen x).
Definition entered (w : world) (c : nat) (x3 : circ) (a : nat) (more : list (nat * bool)) : world :=
  mkWorld (w_cls w) (set_nth c x3 (w_circ w)) (w_op w) (w_qubit w) (w_bit w) (w_var w) (w_ctx w ++ more) (Some a) (w_exit w).

Lemma enter_spec (w : world) c x : idle P w c x -> JQ P w -> JB P w -> small P w ->
  (s_cache (c_q x) = None \/ s_regs (c_q x) <> [] \/ exists r, s_cache (c_q x) = Some r /\ contents r = []) ->
  (s_cache (c_b x) = None -> clear_at P w x) ->
  (s_cache (c_b x) = None \/ s_regs (c_b x) <> [] \/ exists r, s_cache (c_b x) = Some r /\ contents r = []) ->
  exists a rq rb more,
    (unlock c ;; let! a := context c in ctx_enter a ;; ret a) w = (entered w c (opened x a rq rb) a more, Ok a) /\
    inside (entered w c (opened x a rq rb) a more) c (opened x a rq rb) a /\
    (forall b cx, nth_error (w_ctx w) b = Some cx -> nth_error (w_ctx w ++ more) b = Some cx) /\
    contents rq = circuit_qubits x /\ contents rb = circuit_bits x.
Proof.
  intros [Hc Ha He Hx] JQw JBw Sw SQ CB SB.
  set (x1 := with_locked (if c_par x then with_pfrozen x false else x) false).
  set (w1 := set_circ w (set_nth c x1 (w_circ w))).
  assert (E1 : unlock c w = (w1, Ok tt)) by (unfold unlock; now rewrite (upd_circ_run P _ _ _ _ Hc)).
  assert (Hc1 : nth_error (w_circ w1) c = Some x1) by (eapply set_nth_same; eauto).
  assert (C1 : c_ctx x1 = c_ctx x /\ c_q x1 = c_q x /\ c_b x1 = c_b x /\ c_ops x1 = c_ops x /\ c_par x1 = c_par x /\ c_vars x1 = c_vars x /\ c_pfrozen x1 = (if c_par x then false else c_pfrozen x) /\ c_locked x1 = false).
  { unfold x1. destruct (c_par x) eqn:Ep; cbn; rewrite ?Ep; repeat split. }
  destruct C1 as (X1 & X2 & X3 & X4 & X5 & X6 & X7 & X8).
  assert (H : exists a more, context c w1 = (set_ctx (set_circ w (set_nth c (with_ctx x1 (Some a)) (w_circ w))) (w_ctx w ++ more), Ok a) /\
     nth_error (w_ctx w ++ more) a = Some (c, false) /\ forall b cx, nth_error (w_ctx w) b = Some cx -> nth_error (w_ctx w ++ more) b = Some cx).
  { unfold context. rewrite (bind_ok _ _ _ _ _ _ (get_circ_some _ _ _ _ Hc1)). destruct (c_ctx x1) as [a|] eqn:Ec.
    - exists a, []. rewrite app_nil_r. split; [|split; [apply Hx; congruence|auto]]. unfold ret. f_equal. unfold w1.
      assert (with_ctx x1 (Some a) = x1) as -> by (now apply with_ctx_id). now destruct w.
    - exists (List.length (w_ctx w)), [(c, false)]. split; [cbv [mbind read put_circ ret w1]; cbn [set_circ set_ctx w_ctx w_circ]; rewrite set_nth_set_nth; reflexivity|]. split; [now rewrite nth_error_app2, Nat.sub_diag by auto|].
      intros b cx Hb. rewrite nth_error_app1; [exact Hb|]. apply nth_error_Some. congruence. }
  destruct H as (a & more & E2 & Hn & Hk).
  set (x2 := with_ctx x1 (Some a)). set (w2 := set_ctx (set_circ w (set_nth c x2 (w_circ w))) (w_ctx w ++ more)) in *.
  assert (Hc2 : nth_error (w_circ w2) c = Some x2) by (eapply set_nth_same; eauto).
  set (w2' := set_active w2 (Some a)).
  assert (JQ2 : JQ P w2').
  { unfold JQ, w2', w2. cbn [w_qubit w_circ set_active set_ctx set_circ]. rewrite set_nth_map; apply set_nth_Forall; [exact JQw|]. change (c_q x2) with (c_q x1). rewrite X2. exact (JQ_nth _ _ _ _ JQw Hc). }
  assert (JB2 : JB P w2').
  { unfold JB, w2', w2. cbn [w_bit w_circ set_active set_ctx set_circ]. rewrite set_nth_map; apply set_nth_Forall; [exact JBw|]. change (c_b x2) with (c_b x1). rewrite X3. exact (JB_nth _ _ _ _ JBw Hc). }
  assert (Sm2 : small P w2') by exact Sw.
  destruct (qubits_run P c w2' x2 JQ2 Sm2 Hc2) as (rq & Eq & Rq & _ & Cq & Kq).
  set (w3 := cached_q P w2' c x2 rq) in *. set (x3 := with_q x2 (mkSide (s_regs (c_q x2)) (Some rq))) in *.
  assert (Hc3 : nth_error (w_circ w3) c = Some x3) by (eapply set_nth_same; exact Hc2).
  assert (JB3 : JB P w3).
  { unfold JB, w3, cached_q. cbn [w_bit w_circ set_circ]. rewrite set_nth_map; apply set_nth_Forall; [exact JB2|]. exact (JB_nth _ _ _ _ JB2 Hc2). }
  destruct (bits_run P c w3 x3 JB3 Sm2 Hc3) as (rb & _ & Eb & Rb & _ & Cb & Kb).
  assert (Y2 : c_q x2 = c_q x) by exact X2. assert (Y3 : c_b x3 = c_b x) by exact X3.
  assert (Cq' : contents rq = circuit_qubits x).
  { assert (circuit_qubits x2 = circuit_qubits x) as Q by (unfold circuit_qubits; now rewrite Y2).
    rewrite <- Q. rewrite Y2 in Cq, Kq. destruct SQ as [S|[S|(r & S1 & S2)]]; [now apply Cq; left|now apply Cq; right|].
    destruct (s_regs (c_q x)) eqn:Er; [|apply Cq; right; discriminate]. rewrite (Kq r S1), S2, Q. unfold circuit_qubits. now rewrite Er. }
  assert (Cb' : contents rb = circuit_bits x).
  { assert (circuit_bits x3 = circuit_bits x) as Q by (unfold circuit_bits; now rewrite Y3).
    rewrite <- Q. rewrite Y3 in Cb, Kb.
    assert (CA : s_cache (c_b x) = None -> clear_at P w3 x3). { intros HN i b Hb. apply (CB HN i b). now rewrite <- Q. }
    destruct SB as [S|[S|(r & S1 & S2)]]; [now apply Cb; [intros _; exact (CA S)|left]|apply Cb; [exact CA|now right]|].
    destruct (s_regs (c_b x)) eqn:Er; [|apply Cb; [exact CA|right; discriminate]]. rewrite (Kb r S1), S2, Q. unfold circuit_bits. now rewrite Er. }
  assert (Fin : cached_b P w3 c x3 rb = entered w c (opened x a rq rb) a more).
  { unfold cached_b, w3, cached_q, w2', w2, entered. cbn [w_cls w_circ w_op w_qubit w_bit w_var w_ctx w_active w_exit set_circ set_active set_ctx].
    rewrite !set_nth_set_nth.
    assert (V : with_b x3 (mkSide (s_regs (c_b x3)) (Some rb)) = opened x a rq rb).
    { rewrite Y3. unfold x3. rewrite Y2. unfold x2, opened. clearbody x1. clear -X4 X5 X6 X7 X8. unfold with_b, with_q, with_ctx. cbn. now rewrite X4, X5, X6, X7, X8. }
    rewrite V. reflexivity. }
  exists a, rq, rb, more. split; [|split; [|split; [exact Hk|split; [exact Cq'|exact Cb']]]].
  - rewrite (bind_ok _ _ _ _ _ _ E1), (bind_ok _ _ _ _ _ _ E2). unfold ctx_enter.
    assert (En : (let! cx := get_ctx a in let! x0 := get_circ (fst cx) in
       if c_locked x0 then raise CircuitError else let! act := read (@w_active P) in
         match act with Some _ => raise RuntimeError | None => (fun w0 => (set_active w0 (Some a), Ok tt)) ;; qubits (fst cx) ;; bits (fst cx) ;; ret tt end) w2 = (cached_b P w3 c x3 rb, Ok tt)).
    { rewrite (bind_ok _ _ _ _ _ _ (get_ctx_some a w2 (c, false) Hn)). cbn [fst]. rewrite (bind_ok _ _ _ _ _ _ (get_circ_some _ _ _ _ Hc2)).
      assert (c_locked x2 = false) as -> by exact X8.
      assert (Ra : read (@w_active P) w2 = (w2, Ok None)) by (unfold read, w2; cbn; now rewrite Ha). rewrite (bind_ok _ _ _ _ _ _ Ra).
      assert (Rs : (fun w0 : world => (set_active w0 (Some a), Ok tt)) w2 = (w2', Ok tt)) by reflexivity. rewrite (bind_ok _ _ _ _ _ _ Rs).
      rewrite (bind_ok _ _ _ _ _ _ Eq), (bind_ok _ _ _ _ _ _ Eb). reflexivity. }
    rewrite (bind_ok _ _ _ _ _ _ En), Fin. reflexivity.
  - constructor; cbn; auto.
    + eapply set_nth_same; eauto.
    + exists rq. auto.
    + exists rb. auto.
Qed.

Lemma exit_spec (w : world) c x a : inside w c x a ->
  ctx_exit a w = (mkWorld (w_cls w) (set_nth c (with_locked (with_pfrozen x (if c_par x then true else c_pfrozen x)) true) (w_circ w)) (w_op w) (w_qubit w) (w_bit w) (w_var w) (w_ctx w) None (w_exit w), Ok tt).
Proof.
  intros [Hc Ha He Hx Ho Hl _ _]. unfold ctx_exit. rewrite (bind_ok _ _ _ _ _ _ (get_ctx_some a w (c, false) Hx)). cbn [fst].
  rewrite (bind_ok _ _ _ _ _ _ (upd_circ_run P c _ w x Hc)). set (x1 := if c_par x then with_pfrozen x true else x).
  unfold mbind at 1. cbn [set_active set_circ w_exit]. unfold mbind at 1, read. cbn [w_exit set_active set_circ]. rewrite He. cbn [iterM]. unfold mbind at 1, ret.
  unfold mbind at 1. unfold lock. erewrite upd_circ_run by (cbn; eapply set_nth_same; exact Hc).
  cbv delta [set_circ set_active set_exit] beta; cbn [w_cls w_circ w_op w_qubit w_bit w_var w_ctx w_active w_exit]. rewrite set_nth_set_nth.
  assert (V : with_locked x1 true = with_locked (with_pfrozen x (if c_par x then true else c_pfrozen x)) true) by (unfold x1; destruct (c_par x); reflexivity).
  rewrite V. reflexivity.
Qed.
End Steps.

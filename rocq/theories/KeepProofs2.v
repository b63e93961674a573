(** Dropped gates with diagonal matrices, and the gates of the library that have one. *)
From Coq Require Import List NArith Arith Bool Lia Reals Lra Permutation.
From Verif Require Import Py CRing Cplx KernelModel KernelSpec SimModel SimSpec SimReal SimProofs2 MeasureSpec UnitarySpec SampleSpec StateModel BranchSpec GateModel GateProofs2
  RegisterModel WorldModel WorldSpec WorldSpec4 LinkModel LinkSpec SessionModel SessionSpec OrderSpec BornProofs ConeSpec ConeProofs2.
Import ListNotations.
Local Open Scope R_scope.

Lemma phase_keeps o (qs : list nat) q : phase o -> keeps (so_kind Ccring o) qs q.
Proof. unfold phase, keeps. destruct (so_kind Ccring o); try tauto. Qed.
Lemma phase_gate o : phase o -> is_measure (so_kind Ccring o) = false.
Proof. unfold phase. destruct (so_kind Ccring o); tauto || reflexivity. Qed.
Lemma phases_apart c d ts : (forall o, In o d -> phase o) -> (forall t, In t ts -> (t < SimModel.num_qubits Ccring c)%N) -> apart c d ts.
Proof. intros Hd Ht t H. split; [auto|]. intros o qs q Ho _ _ _. apply phase_keeps. auto. Qed.

Theorem phases_simulate c k d : wf_circ c -> unitary_circ c -> (SimModel.num_qubits Ccring c <= 30)%N -> pruned (sc_ops Ccring c) k d -> (forall o, In o d -> phase o) ->
  forall rnd (m m' : SimModel.mem Ccring), (forall k, uniform (rnd k)) -> (forall b, m_bits Ccring m' b = m_bits Ccring m b) -> m_pos Ccring m' = m_pos Ccring m ->
  exists m1 a m2 a', simulate_C rnd c false false m = (m1, Ok (SVec Ccring a)) /\ simulate_C rnd (mkScirc Ccring (sc_qubits Ccring c) k) false false m' = (m2, Ok (SVec Ccring a')) /\
    (forall b, m_bits Ccring m2 b = m_bits Ccring m1 b) /\ m_pos Ccring m2 = m_pos Ccring m1 /\
    forall ts os, (forall t, In t ts -> (t < SimModel.num_qubits Ccring c)%N) -> joint (SimModel.num_qubits Ccring c) ts os a' = joint (SimModel.num_qubits Ccring c) ts os a.
Proof.
  intros Wc Uc Hn H Hd rnd m m' Hr Hb Hp.
  destruct (pruned_simulate c k d Wc Uc Hn H (fun o Ho => phase_gate o (Hd o Ho)) rnd m m' Hr Hb Hp) as (m1 & a & m2 & a' & E1 & E2 & E3 & E4 & E5).
  exists m1, a, m2, a'. split; [exact E1|]. split; [exact E2|]. split; [exact E3|]. split; [exact E4|]. intros ts os Ht. apply E5. now apply phases_apart.
Qed.

Lemma Cexp_not x : Cexp x <> C0.
Proof. intros E. unfold Cexp, C0 in E. injection E as E1 E2. pose proof (sin2_cos2 x) as H. unfold Rsqr in H. rewrite E1, E2 in H. lra. Qed.
Lemma unit_scale z y : z <> C0 -> Cmul z (RtoC y) = C0 -> y = 0.
Proof.
  intros Hz E. destruct (Req_dec y 0) as [->|Hy]; [reflexivity|]. exfalso. apply Hz. unfold Cmul, RtoC, C0 in *. destruct z as (a, b). cbn in *. unfold Re, Im in *. cbn in *.
  injection E as E1 E2. f_equal; apply (Rmult_eq_reg_r y); lra.
Qed.
Theorem library_diagonal g : diagonal (matrix1 g) <->
  match g with
  | GIdentity | GZ | GS | GT | GRZ _ => True
  | GX | GY | GHadamard => False
  | GRX theta | GRY theta | GRotation _ theta _ => sin (theta / 2) = 0
  end.
Proof.
  assert (Q : sqrt 2 <> 0) by (intros E; pose proof (sqrt_sqrt 2) as H; rewrite E in H; lra).
  unfold diagonal. destruct g as [| | | | | | |theta|theta|theta|beta theta delta]; unfold matrix1, lit; change (N.to_nat 0) with 0%nat; change (N.to_nat 1) with 1%nat; cbn [nth]; try tauto.
  - split; [intros (A & B)|intros []]. injection A. lra.
  - split; [intros (A & B)|intros []]. injection B. lra.
  - split; [intros (A & B)|intros []]. unfold Cscale, Cmul, RtoC, C1, C0, Re, Im in A. cbn -[Rdiv sqrt] in A. injection A as A _. apply Q. lra.
  - split; [intros (A & _); unfold Cmul, Copp, Ci, RtoC, C0, Re, Im in A; cbn -[Rdiv sin] in A; injection A as _ A; lra|].
    intros ->. split; unfold Cmul, Copp, Ci, RtoC, C0, Re, Im; cbn; f_equal; ring.
  - split; [intros (_ & B); unfold RtoC, C0 in B; now injection B|]. intros ->. split; unfold Copp, RtoC, C0, Re, Im; cbn; f_equal; ring.
  - split; [intros (_ & B); eapply unit_scale; [|exact B]; apply Cexp_not|]. intros ->. split; unfold Cmul, RtoC, C0, Re, Im; cbn; f_equal; ring.
Qed.

(** ** Programs *)
Local Open Scope nat_scope.
Theorem session_phases ptrue peqb extra p s : sexecutes ptrue peqb (own_ok R) p (begin (library_classes ++ extra)%list) -> svisits ptrue peqb p (begin (library_classes ++ extra)%list) s -> small R (s_w s) ->
  forall c d x y sc sd dropped, nth_error (w_circ (s_w s)) c = Some x -> nth_error (w_circ (s_w s)) d = Some y ->
  (forall o t, In o (c_ops x) -> nth_error (w_op (s_w s)) o = Some t -> ready (s_w s) x o t) ->
  (forall o t, In o (c_ops y) -> nth_error (w_op (s_w s)) o = Some t -> ready (s_w s) y o t) ->
  let n := List.length (circuit_qubits x) in 1 <= n -> n <= 30 -> List.length (circuit_qubits y) = n ->
  seen (s_w s) c = Some sc -> seen (s_w s) d = Some sd -> sc_qubits Ccring sd = sc_qubits Ccring sc -> pruned (sc_ops Ccring sc) (sc_ops Ccring sd) dropped ->
  (forall o, In o dropped -> phase o) ->
  forall rnd, (forall k, uniform (rnd k)) -> exists s1 s2 a a', sim c false false rnd s = (s1, Ok tt) /\ sim d false false rnd s = (s2, Ok tt) /\
    s_st s1 c = mkCst (Some (mkArr [2 ^ N.of_nat n]%N a)) None /\ s_st s2 d = mkCst (Some (mkArr [2 ^ N.of_nat n]%N a')) None /\
    (forall b, b < List.length (w_bit (s_w s)) -> bit_value R (s_w s2) b = bit_value R (s_w s1) b) /\
    forall ts os, (forall t, In t ts -> (t < N.of_nat n)%N) -> joint (N.of_nat n) ts os a' = joint (N.of_nat n) ts os a.
Proof.
  intros He Hv Hsm c d x y sc sd dropped Hx Hy Rx Ry n H1 H30 Hn2 Ec Ed Hq H Hd rnd Hr.
  destruct (session_pruned ptrue peqb extra p s He Hv Hsm c d x y sc sd dropped Hx Hy Rx Ry H1 H30 Hn2 Ec Ed Hq H (fun o Ho => phase_gate o (Hd o Ho)) rnd Hr)
    as (s1 & s2 & a & a' & E1 & E2 & E3 & E4 & E5 & E6).
  destruct (BornProofs.session_run ptrue peqb extra p s c x He Hv Hsm Hx Rx H1 H30) as (sc' & Es & En & _). rewrite Ec in Es. injection Es as <-. fold n in En.
  exists s1, s2, a, a'. split; [exact E1|]. split; [exact E2|]. split; [exact E3|]. split; [exact E4|]. split; [exact E5|].
  intros ts os Ht. apply E6. apply phases_apart; [exact Hd|]. now rewrite En.
Qed.

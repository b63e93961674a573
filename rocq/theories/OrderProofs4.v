(** Circuits of programs, and density matrices, with the operations in another order. *)
From Coq Require Import List NArith Arith Bool Lia Reals Lra Permutation.
From Verif Require Import Py CRing Cplx KernelModel KernelSpec KernelProofs2 SimModel SimSpec SimReal SimProofs SimProofs2 SimProofs3 SimProofs4 MeasureSpec SimProofs7
  UnitarySpec CallSpec CallProofs CallProofs2 CallProofs3 SampleSpec SampleProofs SampleProofs2 StateModel StateProofs BranchSpec BranchProofs BranchProofs2 GateModel RewriteSpec RewriteProofs
  RegisterModel WorldModel WorldSpec WorldSpec4 WorldInv WorldInv7 LinkModel LinkSpec LinkProofs SessionModel SessionSpec SessionProofs SessionProofs2 SessionProofs3 SessionProofs4 BornProofs RewriteProofs4 OrderSpec OrderProofs OrderProofs2 OrderProofs3.
Import ListNotations.
Local Open Scope R_scope.

(** ** Orders given by positions *)
Section Positions.
Variable both : bool.
Variable f : nat -> sop Ccring.

Lemma reordered_refl l : reordered both l l.
Proof. induction l; constructor; auto. Qed.
Lemma reordered_front a k b : (forall i, In i a -> independent (f i) (f k) /\ (is_measure (so_kind Ccring (f i)) = true -> is_measure (so_kind Ccring (f k)) = true -> both = true)) ->
  reordered both (map f (a ++ k :: b)) (map f (k :: a ++ b)).
Proof.
  induction a as [|i a IH]; intros H; [apply reordered_refl|]. cbn [app map].
  apply re_trans with (f i :: f k :: map f (a ++ b)).
  - apply re_cons. apply IH. intros; apply H; now right.
  - destruct (H i (or_introl eq_refl)). now apply re_swap.
Qed.
Lemma before_insert a k b i j : before (a ++ b) i j -> before (a ++ k :: b) i j.
Proof.
  intros (x & y & z & E). revert x y z E. induction a as [|u a IH]; intros x y z E; cbn [app] in *.
  - exists (k :: x), y, z. cbn. now rewrite E.
  - destruct x as [|u' x]; cbn [app] in E; injection E as -> E.
    + assert (Hj : In j (a ++ k :: b)) by (assert (In j (a ++ b)) by (rewrite E; apply in_or_app; right; now left); apply in_app_or in H; apply in_or_app; cbn; tauto).
      apply in_split in Hj. destruct Hj as (y' & z' & ->). exists [], y', z'. reflexivity.
    + destruct (IH x y z E) as (x' & y' & z' & ->). exists (u' :: x'), y', z'. reflexivity.
Qed.
Lemma positions_reordered is : forall was, NoDup was -> Permutation was is ->
  (forall i j, before was i j -> before is j i -> independent (f i) (f j) /\ (is_measure (so_kind Ccring (f i)) = true -> is_measure (so_kind Ccring (f j)) = true -> both = true)) ->
  reordered both (map f was) (map f is).
Proof.
  induction is as [|k is IH]; intros was Hn Hp H.
  - apply Permutation_sym, Permutation_nil in Hp. subst. constructor.
  - assert (Hk : In k was) by (eapply Permutation_in; [apply Permutation_sym; exact Hp|now left]). apply in_split in Hk. destruct Hk as (a & b & ->).
    assert (Hp' : Permutation (a ++ b) is) by (apply Permutation_cons_inv with k; eapply perm_trans; [apply Permutation_middle|exact Hp]).
    apply re_trans with (map f (k :: a ++ b)).
    + apply reordered_front. intros i Hi. apply H.
      * apply in_split in Hi. destruct Hi as (x & y & ->). exists x, y, b. rewrite <- app_assoc. reflexivity.
      * assert (Hi' : In i is) by (eapply Permutation_in; [exact Hp'|apply in_or_app; now left]). apply in_split in Hi'. destruct Hi' as (x & y & ->). exists [], x, y. reflexivity.
    + cbn [map]. apply re_cons. apply IH; [eapply NoDup_remove_1; eauto|exact Hp'|]. intros i j B1 B2. apply H; [now apply before_insert|].
      destruct B2 as (x & y & z & ->). exists (k :: x), y, z. reflexivity.
Qed.
End Positions.
Theorem rearranged_reordered both l l' : rearranged both l l' -> reordered both l l'.
Proof. intros (f & was & is & -> & -> & Hn & Hp & H). now apply positions_reordered. Qed.

(** ** Simulations do not depend on the list kept in the circuit. *)
Lemma run_qubits rnd c d : sc_qubits Ccring d = sc_qubits Ccring c -> forall l m v, run_pure_C rnd d false l m v = run_pure_C rnd c false l m v.
Proof.
  intros E l. unfold run_pure_C. induction l as [|o l IH]; intros m v; [reflexivity|]. cbn [run_pure].
  assert (T : target_indices Ccring d o = target_indices Ccring c o) by (unfold target_indices; now rewrite E). rewrite T.
  assert (Q : SimModel.num_qubits Ccring d = SimModel.num_qubits Ccring c) by (unfold SimModel.num_qubits; now rewrite E). rewrite Q.
  destruct (target_indices Ccring c o) as [ts|]; [|reflexivity]. destruct (apply_instruction _ _ _ _ _ _ _ _ _ _ _ _ _) as [m3 [v3|]]; [apply IH|reflexivity].
Qed.

(** ** Density matrices *)
Lemma wf_reordered both c ops : wf_circ c -> reordered both (sc_ops Ccring c) ops -> wf_circ (mkScirc Ccring (sc_qubits Ccring c) ops).
Proof. intros (A1 & A2 & A3) H. split; [exact A1|]. split; [exact A2|]. intros o Ho. apply (A3 o). eapply reordered_in; eauto. Qed.
Theorem reordered_density c ops : wf_circ c -> unitary_circ c -> (2 * SimModel.num_qubits Ccring c <= 30)%N -> measurement_free c -> reordered false (sc_ops Ccring c) ops ->
  forall rnd (m : SimModel.mem Ccring) s s' le le', (forall k, uniform (rnd k)) ->
  let n := SimModel.num_qubits Ccring c in
  exists rho rho', simulate_set rnd c true le m s = (m, mkCst None (Some (mkArr [2 ^ n; 2 ^ n]%N rho)), Ok tt) /\
    simulate_set rnd (mkScirc Ccring (sc_qubits Ccring c) ops) true le' m s' = (m, mkCst None (Some (mkArr [2 ^ n; 2 ^ n]%N rho')), Ok tt) /\
    forall r k, (r < 2 ^ n)%N -> (k < 2 ^ n)%N -> rho' (rowcol n r k) = rho (rowcol n r k).
Proof.
  intros Wc Uc Hn Mc H rnd m s s' le le' Hr n; subst n.
  destruct (simulate_sets_density rnd c le m s Hr Wc Uc Mc Hn) as (rho & v & E1 & E2 & _ & E3).
  pose proof (wf_reordered _ c ops Wc H) as Wd. set (d := mkScirc Ccring (sc_qubits Ccring c) ops) in *.
  assert (Ud : unitary_circ d) by (intros o Ho; apply Uc; eapply reordered_in; eauto).
  assert (Md : measurement_free d) by (intros o Ho; apply Mc; eapply reordered_in; eauto).
  destruct (simulate_sets_density rnd d le' m s' Hr Wd Ud Md Hn) as (rho' & v' & F1 & F2 & _ & F3).
  change (SimModel.num_qubits Ccring d) with (SimModel.num_qubits Ccring c) in *.
  exists rho, rho'. split; [exact E1|]. split; [exact F1|]. intros r k Hr' Hk. rewrite (E3 r k Hr' Hk), (F3 r k Hr' Hk).
  assert (L : (SimModel.num_qubits Ccring c <= 30)%N) by lia.
  destruct (reordered_simulate c ops Wc Uc L H rnd m m Hr (fun _ => eq_refl) eq_refl) as (m1 & a & m2 & a' & G1 & G2 & _ & _ & Ha).
  rewrite E2 in G1. injection G1 as <- <-. fold d in G2. rewrite F2 in G2. injection G2 as <- <-. now rewrite (Ha r Hr'), (Ha k Hk).
Qed.

(** ** Programs *)
Local Open Scope nat_scope.
Section Program.
Variable ptrue : R -> bool.
Variable peqb : R -> R -> bool.
Variable extra : list cls.
Variable p : sprog.
Variable s : session.
Hypothesis He : sexecutes ptrue peqb (own_ok R) p (begin (library_classes ++ extra)%list).
Hypothesis Hv : svisits ptrue peqb p (begin (library_classes ++ extra)%list) s.
Hypothesis Hsm : small R (s_w s).

Theorem session_reordered c d x y sc sd : nth_error (w_circ (s_w s)) c = Some x -> nth_error (w_circ (s_w s)) d = Some y ->
  (forall o t, In o (c_ops x) -> nth_error (w_op (s_w s)) o = Some t -> ready (s_w s) x o t) ->
  (forall o t, In o (c_ops y) -> nth_error (w_op (s_w s)) o = Some t -> ready (s_w s) y o t) ->
  let n := List.length (circuit_qubits x) in 1 <= n -> n <= 30 -> List.length (circuit_qubits y) = n ->
  seen (s_w s) c = Some sc -> seen (s_w s) d = Some sd -> sc_qubits Ccring sd = sc_qubits Ccring sc -> rearranged false (sc_ops Ccring sc) (sc_ops Ccring sd) ->
  forall rnd, (forall k, uniform (rnd k)) -> exists s1 s2 a a', sim c false false rnd s = (s1, Ok tt) /\ sim d false false rnd s = (s2, Ok tt) /\
    s_st s1 c = mkCst (Some (mkArr [2 ^ N.of_nat n]%N a)) None /\ s_st s2 d = mkCst (Some (mkArr [2 ^ N.of_nat n]%N a')) None /\
    (forall b, b < List.length (w_bit (s_w s)) -> bit_value R (s_w s2) b = bit_value R (s_w s1) b) /\
    forall i, (i < 2 ^ N.of_nat n)%N -> a' i = a i.
Proof.
  intros Hx Hy Rx Ry n Hn1 Hn30 Hn2 Ec Ed Hq H rnd Hr. apply rearranged_reordered in H.
  destruct (session_run ptrue peqb extra p s c x He Hv Hsm Hx Rx Hn1 Hn30) as (sc' & Es & En & _ & _ & Ew & Eu & Hrun).
  rewrite Ec in Es. injection Es as <-. fold n in En, Hrun.
  assert (Hm1 : 1 <= List.length (circuit_qubits y)) by lia. assert (Hm30 : List.length (circuit_qubits y) <= 30) by lia.
  destruct (session_run ptrue peqb extra p s d y He Hv Hsm Hy Ry Hm1 Hm30) as (sd' & Ds & _ & _ & _ & _ & _ & Drun).
  rewrite Ed in Ds. injection Ds as <-. rewrite Hn2 in Drun.
  destruct (Hrun rnd Hr) as (m & a & Er & Esim). destruct (Drun rnd Hr) as (m' & a' & Er' & Esim').
  assert (L30 : (SimModel.num_qubits Ccring sc <= 30)%N) by (rewrite En; lia). destruct Ew as (A1 & A2 & A3).
  rewrite (run_qubits rnd sc sd Hq) in Er'.
  destruct (reordered_run sc A1 L30 rnd Hr _ _ H (fun o Ho => conj (A3 o Ho) (Eu o Ho)) (found s) (zero_state Ccring) (found s) (zero_state Ccring) (zero_normalised _))
    as (m1 & b & m2 & b' & E1 & E2 & (E3 & _ & E5) & _); [split; [auto|split; auto]|].
  rewrite Er in E1. injection E1 as <- <-. rewrite Er' in E2. injection E2 as <- <-. rewrite En in E5.
  eexists _, _, a, a'. split; [exact Esim|]. split; [exact Esim'|]. cbn [s_st s_w]. split; [unfold set_at; now rewrite Nat.eqb_refl|]. split; [unfold set_at; now rewrite Nat.eqb_refl|].
  split; [|exact E5]. intros i Hi. rewrite !put_value; [apply E3| |]; rewrite qubits_bits; auto.
Qed.
End Program.

(** ** Branches of circuits with the same qubits *)
Lemma branch_qubits c d : sc_qubits Ccring d = sc_qubits Ccring c -> forall l h bits v bits' w, branch c l h bits v bits' w -> branch d l h bits v bits' w.
Proof.
  intros E l h bits v bits' w H. destruct c as [qs cs], d as [qs' ds]. cbn in E. subst qs'.
  induction H as [bits v bits' w Hb Hw|o ops h bits v bits' w Hz H IH|o ops h ts bits v v' bits' w Hz Hm Hp Hv H IH|o ops mid st os h ts bits v v' bits' w Hz Hk Hp Hl Hv H IH].
  - now constructor.
  - now apply branch_blocked.
  - now apply branch_gate with (ts := ts) (v' := v').
  - now apply branch_measure with (mid := mid) (store := st) (ts := ts) (v' := v').
Qed.
Theorem rearranged_branches c ops : wf_circ c -> unitary_circ c -> rearranged true (sc_ops Ccring c) ops -> forall bits v,
  let d := mkScirc Ccring (sc_qubits Ccring c) ops in
  exists L : list (list bool * list bool * R),
    NoDup (map (fun x => fst (fst x)) L) /\ NoDup (map (fun x => snd (fst x)) L) /\
    (forall h, In h (map (fun x => fst (fst x)) L) <-> exists bits' w, branch c (sc_ops Ccring c) h bits v bits' w) /\
    (forall h, In h (map (fun x => snd (fst x)) L) <-> exists bits' w, branch d (sc_ops Ccring d) h bits v bits' w) /\
    (forall h h' p, In (h, h', p) L -> Permutation h h' /\
       forall bits' w, branch c (sc_ops Ccring c) h bits v bits' w -> branch d (sc_ops Ccring d) h' bits v bits' w /\ weight (SimModel.num_qubits Ccring c) w = p) /\
    Rsum L snd = weight (SimModel.num_qubits Ccring c) v.
Proof.
  intros (A1 & _ & A3) Uc H bits v d. apply rearranged_reordered in H.
  destruct (OrderProofs3.reordered_paired c A1 true _ _ H (fun o Ho => conj (A3 o Ho) (Uc o Ho)) bits v) as (L & L1 & L2 & L3 & L4 & L5 & L6).
  exists L. split; [exact L1|]. split; [exact L2|]. split; [exact L3|]. split; [|split; [|exact L6]].
  - intros h. rewrite L4. split; intros (b & w & Hb); exists b, w; (eapply branch_qubits; [|exact Hb]); reflexivity.
  - intros h h' q Hi. destruct (L5 h h' q Hi) as (P & Q). split; [exact P|]. intros b w Hb. destruct (Q b w Hb) as (Q1 & Q2). split; [|exact Q2].
    eapply branch_qubits; [|exact Q1]. reflexivity.
Qed.

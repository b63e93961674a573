(** Proofs for C68: equality of operations. *)
From Coq Require Import List String ZArith Bool Arith Lia Reals.
From Verif Require Import Py Cplx SimModel GateModel RegisterModel WorldModel WorldSpec WorldSpec2 WorldSpec4 WorldWf WorldWf3 WorldOps
  WorldArity WorldArity2 LinkModel LinkSpec LinkProofs EqSpec.
Import ListNotations.
Local Open Scope nat_scope.

Section Ops.
Variable P : Type.
Variable ptrue : P -> bool.
Variable peqb : P -> P -> bool.
Notation world := (world P).
Notation same_param := (same_param P ptrue peqb).
Notation same_op := (same_op P ptrue peqb).
Notation op_eq := (op_eq ptrue peqb).
Variable ok : world -> call P -> Prop.

Section World.
Variable w : world.
Hypothesis Hw : reaches P ptrue peqb ok w.

Lemma class_of o y : nth_error (w_op w) o = Some y -> exists k, nth_error (w_cls w) (o_cls y) = Some k.
Proof.
  intros H. pose proof (WF_reach P ptrue peqb ok w Hw) as W. destruct (nth_error (w_cls w) (o_cls y)) as [k|] eqn:E; [eauto|].
  apply nth_error_None in E. pose proof (wf_cls P w W o y H). lia.
Qed.
(** The outcome of a comparison. *)
Lemma op_eq_outcome a b x y : nth_error (w_op w) a = Some x -> nth_error (w_op w) b = Some y ->
  (parametrised P w a /\ ~ parametrised P w b /\ op_eq a b w = (w, Err AttributeError)) \/
  ((parametrised P w a -> parametrised P w b) /\ exists e, op_eq a b w = (w, Ok e) /\ (e = true <-> same_op w a b)).
Proof.
  intros Ha Hb. destruct (class_of a x Ha) as (kx & Hx). destruct (class_of b y Hb) as (ky & Hy).
  destruct (parametrised_dec P w a) as [Pa|Pa]; [destruct (parametrised_dec P w b) as [Pb|Pb]|].
  - right. split; [tauto|]. eapply op_eq_run; eauto.
  - left. split; [assumption|]. split; [assumption|]. apply op_eq_attr; auto.
    + apply nth_error_Some. congruence.
    + apply nth_error_Some. congruence.
    + apply (wf_cls P w (WF_reach P ptrue peqb ok w Hw)).
  - right. split; [tauto|]. eapply op_eq_run; eauto. tauto.
Qed.
Lemma op_eq_true a b x y : nth_error (w_op w) a = Some x -> nth_error (w_op w) b = Some y ->
  (op_eq a b w = (w, Ok true) <-> (parametrised P w a -> parametrised P w b) /\ same_op w a b).
Proof.
  intros Ha Hb. destruct (op_eq_outcome a b x y Ha Hb) as [(A & B & C)|(A & e & B & C)].
  - rewrite C. split; [discriminate|tauto].
  - rewrite B. split.
    + intros [= ->]. tauto.
    + intros (_ & S). apply C in S. now subst.
Qed.
End World.

Lemma same_item_sym (w : world) u v : same_item P w u v -> same_item P w v u.
Proof. intros [->|(b & z & n & [[-> ->]|[-> ->]] & H & E)]; [now left|right..]; exists b, z, n; auto. Qed.
Lemma same_qubits_sym (w : world) a b : same_qubits P w a b -> same_qubits P w b a.
Proof. destruct a, b; cbn; auto. intros H. induction H; constructor; auto. now apply same_item_sym. Qed.
Lemma same_param_sym (w : world) (sym : forall p q, peqb p q = true -> peqb q p = true) a b : same_param w a b -> same_param w b a.
Proof. destruct a, b; cbn; auto. intros (s & x & y & A & B). eauto. Qed.
Lemma Forall2_sym {A} (R : A -> A -> Prop) (H : forall a b, R a b -> R b a) l m : Forall2 R l m -> Forall2 R m l.
Proof. induction 1; constructor; auto. Qed.

Lemma op_eq_refl w o y : reaches P ptrue peqb ok w -> nth_error (w_op w) o = Some y -> (forall p, peqb p p = true) ->
  (forall v, In (PVar v) (o_params y) -> v < List.length (w_var w)) -> op_eq o o w = (w, Ok true).
Proof.
  intros Hw Ho R V. apply (op_eq_true w Hw o o y y Ho Ho). split; [auto|]. destruct (class_of w Hw o y Ho) as (k & Hk).
  exists y, y, k, k. repeat (split; [assumption||reflexivity|]). split.
  - destruct (o_qubits y) as [l|]; cbn; auto. induction l; constructor; auto. now left.
  - intros _. induction (o_params y) as [|p l IH]; constructor; [|apply IH; intros; apply V; now right].
    destruct p as [p|v]; cbn; auto. destruct (nth_error (w_var w) v) as [[s q]|] eqn:E; [eauto|]. apply nth_error_None in E.
    pose proof (V v (or_introl eq_refl)). lia.
Qed.
Lemma op_eq_sym w a b x y e e' : reaches P ptrue peqb ok w -> nth_error (w_op w) a = Some x -> nth_error (w_op w) b = Some y ->
  (forall p q, peqb p q = true -> peqb q p = true) -> op_eq a b w = (w, Ok e) -> op_eq b a w = (w, Ok e') -> e = e'.
Proof.
  intros Hw Ha Hb sym E1 E2.
  assert (S : forall a b, (parametrised P w b -> parametrised P w a) -> same_op w a b -> same_op w b a).
  { clear -sym. intros a b pp (x & y & kx & ky & A & B & C & D & N & Q & S). exists y, x, ky, kx. repeat (split; [assumption||now symmetry|]).
    split; [now apply same_qubits_sym|]. intros Pb. apply Forall2_sym; [apply same_param_sym; assumption|]. auto. }
  destruct (op_eq_outcome w Hw a b x y Ha Hb) as [(_ & _ & C)|(A & f & B & C)]; [congruence|].
  destruct (op_eq_outcome w Hw b a y x Hb Ha) as [(_ & _ & C')|(A' & f' & B' & C')]; [congruence|].
  assert (f = e) by congruence. assert (f' = e') by congruence. subst f f'.
  destruct e, e'; auto.
  - symmetry. apply C'. apply S; [assumption|]. now apply C.
  - apply C. apply S; [assumption|]. now apply C'.
Qed.

Lemma Forall2_trans {A} (R : A -> A -> Prop) l : forall m k, (forall a b c, In b m -> R a b -> R b c -> R a c) ->
  Forall2 R l m -> Forall2 R m k -> Forall2 R l k.
Proof.
  induction l as [|a l IH]; intros [|b m] [|c k] H F G; inversion F; inversion G; subst; constructor.
  - apply (H a b c); auto. now left.
  - apply (IH m k); auto. intros a' b' c' Hi. apply H. now right.
Qed.
Lemma op_eq_trans w a b c x y z : reaches P ptrue peqb ok w ->
  nth_error (w_op w) a = Some x -> nth_error (w_op w) b = Some y -> nth_error (w_op w) c = Some z ->
  (forall p q r, peqb p q = true -> peqb q r = true -> peqb p r = true) ->
  (forall p q, peqb p q = true -> peqb q p = true) ->
  (forall l, o_qubits y = Some l -> Forall is_qubit l) ->
  (forall u v, In (PVar u) (o_params x ++ o_params y ++ o_params z) -> In (PVar v) (o_params x ++ o_params y ++ o_params z) -> u = v) ->
  op_eq a b w = (w, Ok true) -> op_eq b c w = (w, Ok true) -> op_eq a c w = (w, Ok true).
Proof.
  intros Hw Ha Hb Hc tr sym Hq V E1 E2.
  apply (op_eq_true w Hw a b x y Ha Hb) in E1. apply (op_eq_true w Hw b c y z Hb Hc) in E2. apply (op_eq_true w Hw a c x z Ha Hc).
  destruct E1 as (Pab & (x' & y' & kx & ky & A & B & C & D & Nm & Q & S)). assert (x' = x) by congruence. assert (y' = y) by congruence. subst x' y'.
  destruct E2 as (Pbc & (y' & z' & ky' & kz & B' & A' & D' & C' & Nm' & Q' & S')). assert (z' = z) by congruence. assert (y' = y) by congruence. subst z' y'.
  assert (ky' = ky) by congruence. subst ky'. split; [tauto|].
  exists x, z, kx, kz. repeat (split; [assumption||congruence|]). split.
  - destruct (o_qubits z) as [lz|], (o_qubits y) as [ly|], (o_qubits x) as [lx|]; cbn in *; try contradiction; auto.
    eapply Forall2_trans; eauto. intros u v t Hin. pose proof (Hq ly eq_refl) as F. rewrite Forall_forall in F. destruct (F v Hin) as (q & ->).
    intros [->|(b0 & z0 & n0 & [[_ K]|[_ K]] & _)] [<-|(b1 & z1 & n1 & [[K' _]|[K' _]] & _)]; try discriminate. now left.
  - intros Pa. specialize (S Pa). specialize (S' (Pab Pa)). clear - S S' V tr sym.
    assert (G : forall p q r, In q (o_params y) -> In p (o_params z) -> In r (o_params x) -> same_param w p q -> same_param w q r -> same_param w p r).
    { intros p q r I1 I2 I3. assert (J : forall u v, In (PVar u) [p; q; r] -> In (PVar v) [p; q; r] -> u = v).
      { intros u v Hu Hv. apply V; rewrite !in_app_iff; [destruct Hu as [Hu|[Hu|[Hu|[]]]]|destruct Hv as [Hv|[Hv|[Hv|[]]]]]; subst; auto. }
      destruct p as [p'|u], q as [q'|t], r as [r'|v]; cbn in J |- *; intros H1 H2.
      - eapply tr; eauto.
      - destruct H2 as (s & n & N & T & E). exists s, n. repeat split; auto. eapply tr; eauto.
      - destruct H1 as (s & n & N & T & E). destruct H2 as (s' & n' & N' & T' & E'). rewrite N in N'. injection N' as <- <-. eapply tr; eauto.
      - assert (t = v) as -> by (apply J; auto). exact H1.
      - destruct H1 as (s & n & N & T & E). exists s, n. repeat split; auto. eapply tr; eauto.
      - assert (u = v) as -> by (apply J; auto). destruct H1 as (s & n & N & _). eauto.
      - assert (t = u) as -> by (apply J; auto). exact H2.
      - assert (t = u) as -> by (apply J; auto). exact H2. }
    revert G S S'. generalize (o_params x) (o_params y) (o_params z). clear. intros lx ly lz. revert lx lz.
    induction ly as [|b ly IH]; intros [|a lx] [|c lz] G S S'; inversion S; inversion S'; subst; constructor.
    + eapply G; eauto; now left.
    + apply (IH lx lz); auto. intros p q r I1 I2 I3. apply G; now right.
Qed.
End Ops.

(** ** What the simulator sees of equal operations *)
Lemma library_names : NoDup (map (fun e => k_name (fst e)) library).
Proof.
  cbn. repeat (apply NoDup_cons; [cbn; intuition discriminate|]). apply NoDup_nil.
Qed.
Lemma nodup_map_nth {A B} (f : A -> B) l : NoDup (map f l) -> forall i j x y, nth_error l i = Some x -> nth_error l j = Some y -> f x = f y -> i = j.
Proof.
  intros H i j x y Hi Hj E. apply (proj1 (NoDup_nth_error (map f l)) H).
  - rewrite map_length. apply nth_error_Some. congruence.
  - rewrite !nth_error_map, Hi, Hj. cbn. now rewrite E.
Qed.

Lemma all_some_same {A B} (f : A -> option B) (Q : A -> A -> Prop) : (forall a b x y, Q a b -> f a = Some x -> f b = Some y -> x = y) ->
  forall l m xs ys, Forall2 Q l m -> all_some f l = Some xs -> all_some f m = Some ys -> xs = ys.
Proof.
  intros H l m xs ys F. revert xs ys. induction F as [|a b l m Hab F IH]; cbn; intros xs ys E1 E2; [congruence|].
  destruct (f a) eqn:Ea; [|discriminate]. destruct (all_some f l); [|discriminate]. injection E1 as <-.
  destruct (f b) eqn:Eb; [|discriminate]. destruct (all_some f m); [|discriminate]. injection E2 as <-. f_equal; eauto.
Qed.

Section Seen.
Variable ptrue : R -> bool.
Variable peqb : R -> R -> bool.
Hypothesis peqb_eq : forall a b, peqb a b = true -> a = b.

Lemma same_gate extra p (w : world R) a b sa sb :
  visits R ptrue peqb p (start R (library_classes ++ extra)%list) w ->
  op_eq ptrue peqb a b w = (w, Ok true) -> seen_op w a = Some sa -> seen_op w b = Some sb ->
  so_qubits Ccring sa = so_qubits Ccring sb /\
  match so_kind Ccring sa, so_kind Ccring sb with
  | KMeasure _ i _, KMeasure _ j _ => i = a /\ j = b
  | g, h => g = h
  end.
Proof.
  intros Hv E Sa Sb. unfold seen_op in *.
  destruct (nth_error (w_op w) a) as [x|] eqn:Ha; [|discriminate]. destruct (nth_error (w_op w) b) as [y|] eqn:Hb; [|discriminate].
  destruct (seen_kind a x) as [ka|] eqn:Ka; [|discriminate]. destruct (opt_all qubit_id (o_qubits x)) as [qa|] eqn:Qa; [|discriminate].
  destruct (opt_all bit_id (o_cond x)); [|discriminate]. injection Sa as <-.
  destruct (seen_kind b y) as [kb|] eqn:Kb; [|discriminate]. destruct (opt_all qubit_id (o_qubits y)) as [qb|] eqn:Qb; [|discriminate].
  destruct (opt_all bit_id (o_cond y)); [|discriminate]. injection Sb as <-. cbn.
  assert (Hw : reaches R ptrue peqb (fun _ _ => True) w).
  { exists (library_classes ++ extra)%list, p. split; [apply executes_true|exact Hv]. }
  apply (op_eq_true R ptrue peqb _ w Hw a b x y Ha Hb) in E. destruct E as (Pab & (x' & y' & kx & ky & A & B & C & D & Nm & Q & S)).
  assert (x' = x) by congruence. assert (y' = y) by congruence. subst x' y'. split.
  - destruct (o_qubits x) as [lx|], (o_qubits y) as [ly|]; cbn in *; try contradiction; [|congruence].
    destruct (all_some qubit_id lx) as [l1|] eqn:L1; [|discriminate]. destruct (all_some qubit_id ly) as [l2|] eqn:L2; [|discriminate].
    injection Qa as <-. injection Qb as <-. f_equal. symmetry. eapply all_some_same; [|exact Q|exact L2|exact L1].
    intros u v q r [->|(b0 & z0 & n0 & [[-> ->]|[-> ->]] & _)]; cbn; try discriminate. congruence.
  - unfold seen_kind in *.
    destruct (nth_error library (o_cls x)) as [[cx fx]|] eqn:Lx; [|discriminate]. destruct (nth_error library (o_cls y)) as [[cy fy]|] eqn:Ly; [|discriminate].
    pose proof (link_class extra _ _ _ Lx) as Nx. pose proof (link_class extra _ _ _ Ly) as Ny.
    destruct (parameters_kept R ptrue peqb _ p w _ _ Hv Nx) as ((cx' & X1 & X2 & X3) & _).
    destruct (parameters_kept R ptrue peqb _ p w _ _ Hv Ny) as ((cy' & Y1 & Y2 & Y3) & _).
    assert (cx' = kx) by congruence. assert (cy' = ky) by congruence. subst cx' cy'.
    assert (Same : o_cls x = o_cls y).
    { eapply (nodup_map_nth _ _ library_names); [exact Lx|exact Ly|]. cbn. congruence. }
    rewrite <- Same, Lx in Ly. injection Ly as <- <-.
    destruct (parameters_kept R ptrue peqb _ p w _ _ Hv Nx) as (_ & Cx).
    assert (Par : has_params (k_kind cx) = false -> o_params x = [] /\ o_params y = []).
    { intros F. destruct (Cx a x Ha eq_refl) as [?|[? _]]; [|congruence]. destruct (Cx b y Hb (eq_sym Same)) as [?|[? _]]; [|congruence]. auto. }
    assert (Eq : has_params (k_kind cx) = true -> Forall2 (same_param R ptrue peqb w) (o_params y) (o_params x)).
    { intros F. apply S. exists x, kx. repeat split; auto. apply has_params_kind. congruence. }
    assert (Gate : forall ps qs, all_some number_of (o_params x) = Some ps -> all_some number_of (o_params y) = Some qs -> ps = qs).
    { intros ps qs P1 P2. destruct (has_params (k_kind cx)) eqn:F.
      - symmetry. eapply all_some_same; [|exact (Eq eq_refl)|exact P2|exact P1].
        intros [u|u] [v|v] r s; cbn; try discriminate. intros K%peqb_eq. congruence.
      - destruct (Par eq_refl) as (E1 & E2). rewrite E1 in P1. rewrite E2 in P2. congruence. }
    destruct (k_kind cx);
      first [ (destruct (opt_all bit_id (o_bits x)); [|discriminate]; destruct (opt_all bit_id (o_bits y)); [|discriminate]; injection Ka as <-; injection Kb as <-; auto)
            | (destruct (all_some number_of (o_params x)) as [ps|]; [|discriminate]; destruct (all_some number_of (o_params y)) as [qs|]; [|discriminate];
               rewrite <- (Gate ps qs eq_refl eq_refl) in Kb; destruct (fx ps) as [g|]; [|discriminate]; injection Ka as <-; injection Kb as <-; destruct g as [[]|[]| | |]; reflexivity) ].
Qed.
End Seen.

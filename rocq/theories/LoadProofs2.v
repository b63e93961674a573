(** Constructing an operation in the context of a circuit. *)
From Coq Require Import List ZArith String Bool Arith Lia.
From Verif Require Import Py QirModel LinkModel RegisterModel RegisterSpec RegisterProofs WorldModel WorldSpec WorldSpec4 WorldReg WorldInv WorldInv2 WorldInv3 WorldInv4 WorldWf2 WorldOps LoadModel LoadSpec LoadProofs.
Import ListNotations.
Local Open Scope nat_scope.

Section Steps.
Variable P : Type.
Variable ptrue : P -> bool.
Notation world := (world P).
Notation M := (WorldModel.M P).

Lemma qubits_in (w : world) c x r : nth_error (w_circ w) c = Some x -> s_cache (c_q x) = Some r -> qubits c w = (w, Ok r).
Proof. intros H1 H2. unfold qubits. rewrite (bind_ok _ _ _ _ _ _ (get_circ_some _ _ _ _ H1)), H2. reflexivity. Qed.
Lemma bits_in (w : world) c x r : nth_error (w_circ w) c = Some x -> s_cache (c_b x) = Some r -> bits c w = (w, Ok r).
Proof. intros H1 H2. unfold bits. rewrite (bind_ok _ _ _ _ _ _ (get_circ_some _ _ _ _ H1)), H2. reflexivity. Qed.

Lemma own_in (w : world) c x r l : nth_error (w_circ w) c = Some x -> s_cache (c_q x) = Some r -> regok r -> contents r = circuit_qubits x ->
  Forall prim l -> Forall (fun q => In q (circuit_qubits x)) l -> iterM (check_own c) l w = (w, Ok tt).
Proof.
  intros H1 H2 R C Hp Hl. induction l as [|q l IH]; [reflexivity|]. inversion Hp; subst. inversion Hl; subst. cbn [iterM].
  assert (E : check_own c q w = (w, Ok tt)).
  { unfold check_own. rewrite (bind_ok _ _ _ _ _ _ (qubits_in w c x r H1 H2)).
    assert (E1 : lift (count (core r) q) w = (w, Ok true)).
    { unfold lift. rewrite (count_prim r q R) by assumption. do 2 f_equal. rewrite C. now apply inb_In. }
    rewrite (bind_ok _ _ _ _ _ _ E1). reflexivity. }
  rewrite (bind_ok _ _ _ _ _ _ E). auto.
Qed.

(** An operation whose parameters are numbers is added at the end. *)
Lemma eval_nums (w : world) : forall ps i g, eval_loop ptrue w i g (map PNum ps) = (map PNum ps, Ok tt).
Proof. induction ps as [|p ps IH]; intros i g; cbn; [reflexivity|]. now rewrite IH. Qed.

Definition with_new (w : world) (c : nat) (x : circ) (l : list (opobj P)) (y : opobj P) : world :=
  set_circ (set_op w (l ++ [y])) (set_nth c (with_ops x (c_ops x ++ [List.length l])) (w_circ w)).

Lemma append_in (w : world) c x a l y kx ps : inside P w c x a -> w_op w = l ++ [y] -> nth_error (w_cls w) (o_cls y) = Some kx ->
  o_params y = map PNum ps -> Forall prim (oqubits y) -> Forall (fun q => In q (circuit_qubits x)) (oqubits y) ->
  append_op ptrue c (List.length l) w = (with_new w c x l y, Ok tt).
Proof.
  intros I Ho Hk Hp Hq Hi. destruct I as [Hc Ha He Hx Hw Hl (rq & Q1 & Q2 & Q3) _].
  assert (Eo : nth_error (w_op w) (List.length l) = Some y) by (rewrite Ho, nth_error_app2, Nat.sub_diag by auto; reflexivity).
  unfold append_op. rewrite (bind_ok _ _ _ _ _ _ (get_circ_some _ _ _ _ Hc)), Hl.
  rewrite (bind_ok _ _ _ _ _ _ (get_op_some P _ _ _ Eo)), (bind_ok _ _ _ _ _ _ (get_cls_some P _ _ _ Hk)).
  assert (E1 : when (negb (parametric x) && has_params (k_kind kx)) (op_eval ptrue (List.length l) None) w = (w, Ok tt)).
  { unfold when. destruct (negb (parametric x) && has_params (k_kind kx)); [|reflexivity].
    unfold op_eval. rewrite (bind_ok _ _ _ _ _ _ (get_op_some P _ _ _ Eo)). rewrite Hp.
    unfold mbind at 1, read. rewrite eval_nums. cbn [fst snd]. unfold mbind, put_op, lift.
    rewrite <- Hp. assert (with_oparams y (o_params y) = y) as -> by now destruct y. rewrite set_nth_id by exact Eo. now rewrite set_op_same. }
  rewrite (bind_ok _ _ _ _ _ _ E1), (bind_ok _ _ _ _ _ _ (own_in w c x rq (oqubits y) Hc Q1 Q2 Q3 Hq Hi)).
  rewrite (upd_circ_run P c _ w x Hc). unfold with_new. rewrite <- Ho, set_op_same. reflexivity.
Qed.

(** The classes of the library: a controlled class either has no number of qubits yet or a positive one. *)
Definition tame (kx : cls) : Prop := k_numq kx <> Some 0.

Lemma count_in (w : world) k kx l : nth_error (w_cls w) k = Some kx -> tame kx ->
  check_qubits k l w = (w, match miscounted kx (List.length l) with Some e => Err e | None => Ok tt end).
Proof.
  intros Hk Ht. unfold check_qubits. rewrite (bind_ok _ _ _ _ _ _ (get_cls_some P _ _ _ Hk)). unfold miscounted.
  destruct (k_numq kx) as [n|] eqn:En; [|reflexivity].
  assert (E : cls_num_qubits k w = (w, Ok n)).
  { unfold cls_num_qubits. assert (Es : settle k w = (w, Ok tt)).
    { unfold settle. rewrite (bind_ok _ _ _ _ _ _ (get_cls_some P _ _ _ Hk)). rewrite En. destruct n; [now destruct Ht|]. cbn. destruct (k_kind kx); reflexivity. }
    rewrite (bind_ok _ _ _ _ _ _ Es), (bind_ok _ _ _ _ _ _ (get_cls_some P _ _ _ Hk)), En. reflexivity. }
  rewrite (bind_ok _ _ _ _ _ _ E). destruct (Nat.eqb (List.length l) n); reflexivity.
Qed.

Lemma init_in (w : world) c x a l y k kx ps qs : inside P w c x a -> w_op w = l ++ [y] -> o_cls y = k -> nth_error (w_cls w) k = Some kx -> tame kx ->
  o_params y = map PNum ps -> Forall prim qs -> Forall (fun q => In q (circuit_qubits x)) qs ->
  op_init ptrue k (List.length l) (Some qs) w =
  match miscounted kx (List.length qs) with
  | Some e => (w, Err e)
  | None => (with_new w c x l (mkOp k (Some qs) (Some (match k_numq kx with Some n => n | None => List.length qs end)) (o_params y) (o_control y) (o_target y) (o_bits y) None), Ok tt)
  end.
Proof.
  intros I Ho Hy Hk Ht Hp Hq Hi. pose proof I as [Hc Ha He Hx Hw Hl HQ HB].
  unfold op_init. assert (Ra : read (@w_active P) w = (w, Ok (Some a))) by (unfold read; now rewrite Ha). rewrite (bind_ok _ _ _ _ _ _ Ra).
  pose proof (count_in w k kx qs Hk Ht) as E. destruct (miscounted kx (List.length qs)) as [e|].
  { assert (E' : (check_qubits k qs ;; let! x0 := get_cls k in upd_op (List.length l) (fun y0 => mkOp (o_cls y0) (Some qs) (match k_numq x0 with Some n => Some n | None => Some (List.length qs) end) (o_params y0) (o_control y0) (o_target y0) (o_bits y0) None)) w = (w, Err e)) by exact (bind_err _ _ _ _ _ _ E).
    rewrite (bind_err _ _ _ _ _ _ E'). reflexivity. }
  assert (Eo : nth_error (w_op w) (List.length l) = Some y) by (rewrite Ho, nth_error_app2, Nat.sub_diag by auto; reflexivity).
  set (y' := mkOp k (Some qs) (Some (match k_numq kx with Some n => n | None => List.length qs end)) (o_params y) (o_control y) (o_target y) (o_bits y) None).
  assert (E' : (check_qubits k qs ;; let! x0 := get_cls k in upd_op (List.length l) (fun y0 => mkOp (o_cls y0) (Some qs) (match k_numq x0 with Some n => Some n | None => Some (List.length qs) end) (o_params y0) (o_control y0) (o_target y0) (o_bits y0) None)) w = (set_op w (l ++ [y']), Ok tt)).
  { rewrite (bind_ok _ _ _ _ _ _ E), (bind_ok _ _ _ _ _ _ (get_cls_some P _ _ _ Hk)). rewrite (upd_op_run P _ _ w y Eo). do 2 f_equal.
    rewrite Ho. rewrite set_nth_end. unfold y'. rewrite <- Hy. destruct (k_numq kx); reflexivity. }
  rewrite (bind_ok _ _ _ _ _ _ E').
  assert (I' : inside P (set_op w (l ++ [y'])) c x a) by (constructor; auto).
  rewrite (bind_ok _ _ _ _ _ _ (get_ctx_some P a (set_op w (l ++ [y'])) (c, false) Hx)). cbn [fst snd].
  rewrite (append_in (set_op w (l ++ [y'])) c x a l y' kx ps I' eq_refl); auto.
Qed.

Lemma pick_in (w : world) r is l : regok r -> Forall2 (fun j q => nth_error (contents r) j = Some q) is l ->
  Forall (fun j => ssize_ok (zn j) = true) is -> pick P r is w = (w, Ok l).
Proof.
  intros R F S. unfold pick, lift. f_equal. induction F as [|j q is l H F IH]; [reflexivity|]. inversion S; subst. cbn [mapM].
  rewrite (getitem_spec _ _ _ R). unfold spec_at. rewrite H2, spec_nth_nat, H. cbn. now rewrite IH.
Qed.
Lemma pick_out (w : world) r is : regok r -> Exists (fun j => List.length (contents r) <= j) is ->
  Forall (fun j => ssize_ok (zn j) = true) is -> pick P r is w = (w, Err IndexError).
Proof.
  intros R F S. unfold pick, lift. f_equal. induction is as [|j is IH]; [inversion F|]. inversion S; subst. cbn [mapM].
  rewrite (getitem_spec _ _ _ R). unfold spec_at. rewrite H1, spec_nth_nat.
  destruct (nth_error (contents r) j) eqn:E; [|reflexivity]. cbn. rewrite IH; auto. inversion F; subst; auto.
  exfalso. assert (j < List.length (contents r)) by (apply nth_error_Some; congruence). lia.
Qed.

(** The operation that is made. *)
Definition new_op (k : nat) (kx : cls) (ps : list P) (l : list item) : opobj P :=
  let b := match k_kind kx with KCtrl | KParCtrl => true | _ => false end in
  mkOp k (Some l) (Some (match k_numq kx with Some n => n | None => List.length l end))
    (if has_params (k_kind kx) then map PNum (firstn 1 ps) else [])
    (if b then Some (take (k_ncontrol kx) l) else None) (if b then Some (drop (k_ncontrol kx) l) else None) None None.

Lemma split_some kx q l : split_args kx (AQ (Some (q :: l))) = (Some (take (k_ncontrol kx) (q :: l)), Some (drop (k_ncontrol kx) (q :: l)), Some (q :: l)).
Proof. reflexivity. Qed.

Lemma inside_op (w : world) c x a l : inside P w c x a -> inside P (set_op w l) c x a.
Proof. intros [? ? ? ? ? ? ? ?]. constructor; auto. Qed.

Lemma init_none (w : world) a k o : w_active w = Some a -> op_init ptrue k o None w = (w, Err TypeError).
Proof. intros H. unfold op_init. unfold mbind at 1, read. rewrite H. reflexivity. Qed.

Lemma unit_of_run {A} (m : M A) w w' r : m w = (w', r) -> unit_of m w = (w', match r with Ok _ => Ok tt | Err e => Err e end).
Proof. intros H. unfold unit_of, mbind. rewrite H. now destruct r. Qed.

Lemma set_op_set_op (w : world) l l' : set_op (set_op w l) l' = set_op w l'.
Proof. reflexivity. Qed.

Lemma make_in (w : world) c x a n k kx ps r qs l : inside P w c x a -> class_index n = Some k -> nth_error (w_cls w) k = Some kx -> tame kx ->
  regok r -> contents r = circuit_qubits x -> Forall prim (circuit_qubits x) ->
  Forall2 (fun j q => nth_error (circuit_qubits x) j = Some q) qs l -> Forall (fun j => ssize_ok (zn j) = true) qs ->
  match refusal kx (List.length ps) (List.length qs) with
  | None => make P ptrue n ps r qs w = (with_new w c x (w_op w) (new_op k kx ps l), Ok tt)
  | Some e => exists ys, make P ptrue n ps r qs w = (set_op w (w_op w ++ ys), Err e)
  end.
Proof.
  intros I Hn Hk Ht R C Hp Hl Hs.
  assert (L : List.length qs = List.length l) by (clear -Hl; induction Hl; cbn; congruence).
  assert (Hpl : Forall prim l).
  { clear -Hl Hp. induction Hl; constructor; auto. rewrite Forall_forall in Hp. apply Hp. eapply nth_error_In; eauto. }
  assert (Hil : Forall (fun q => In q (circuit_qubits x)) l).
  { clear -Hl. induction Hl; constructor; auto. eapply nth_error_In; eauto. }
  unfold make. rewrite Hn. assert (Hl' : Forall2 (fun j q => nth_error (contents r) j = Some q) qs l) by now rewrite C.
  rewrite (bind_ok _ _ _ _ _ _ (pick_in w r qs l R Hl' Hs)), (bind_ok _ _ _ _ _ _ (get_cls_some P _ _ _ Hk)). rewrite L. clear Hl Hl' L.
  set (y0 := mkOp k None (k_numq kx) [] None None None None : opobj P).
  set (w0 := set_op w (w_op w ++ [y0])).
  assert (I0 : forall y, inside P (set_op w (w_op w ++ [y])) c x a) by (intros; now apply inside_op).
  assert (T : forall e, exists ys, (w, Err e) = (set_op w (w_op w ++ ys), Err (A := unit) e)) by (intros e; exists []; now rewrite app_nil_r, set_op_same).
  assert (Cn : forall pa qa, unit_of (construct ptrue k pa qa) w =
     let (w', o) := (match k_kind kx, pa, qa with
       | KPlain, None, AQ qs | KMeas, None, AQ qs => op_init ptrue k (List.length (w_op w)) qs
       | KParam, Some l, AQ qs => par_init ptrue kx k (List.length (w_op w)) l qs
       | KCtrl, None, _ => let '(ctl, tgt, qs) := split_args kx qa in
           upd_op (List.length (w_op w)) (fun y => mkOp (o_cls y) (o_qubits y) (o_numq y) (o_params y) ctl tgt (o_bits y) (o_cond y)) ;; op_init ptrue k (List.length (w_op w)) qs
       | KParCtrl, Some l, _ => let '(ctl, tgt, qs) := split_args kx qa in
           upd_op (List.length (w_op w)) (fun y => mkOp (o_cls y) (o_qubits y) (o_numq y) (o_params y) ctl tgt (o_bits y) (o_cond y)) ;;
           par_init ptrue kx k (List.length (w_op w)) l qs ;; upd_op (List.length (w_op w)) (fun y => with_oparams y l)
       | _, _, _ => raise TypeError end) w0 in (w', o)).
  { intros pa qa. unfold construct, unit_of. unfold mbind at 1. rewrite (bind_ok _ _ _ _ _ _ (get_cls_some P _ _ _ Hk)). unfold mbind at 1, read. unfold mbind at 1.
    fold y0 w0. unfold mbind at 1. match goal with |- context [match ?m w0 with _ => _ end] => destruct (m w0) as [w' [[]|e]]; reflexivity end. }
  assert (Ini : forall y ps', o_cls y = k -> o_params y = map PNum ps' -> op_init ptrue k (List.length (w_op w)) (Some l) (set_op w (w_op w ++ [y])) =
    match miscounted kx (List.length l) with
    | Some e => (set_op w (w_op w ++ [y]), Err e)
    | None => (with_new w c x (w_op w) (mkOp k (Some l) (Some (match k_numq kx with Some n => n | None => List.length l end)) (o_params y) (o_control y) (o_target y) (o_bits y) None), Ok tt)
    end).
  { intros y ps' H1 H2. rewrite (init_in (set_op w (w_op w ++ [y])) c x a (w_op w) y k kx ps' l (I0 y) eq_refl H1 Hk Ht H2 Hpl Hil). reflexivity. }
  assert (Upd : forall y f, upd_op (List.length (w_op w)) f (set_op w (w_op w ++ [y])) = (set_op w (w_op w ++ [f y]), Ok tt)).
  { intros y f. rewrite (upd_op_run P _ _ _ y) by (cbn; apply nth_end). cbn. now rewrite set_nth_end. }
  unfold refusal. destruct (k_kind kx) eqn:Kd.
  - (* plain *) destruct ps as [|p ps]; [|apply T]. cbn [List.length Nat.eqb]. rewrite Cn. unfold w0. rewrite (Ini y0 []) by reflexivity.
    destruct (miscounted kx (List.length l)); [now exists [y0]|]. unfold new_op. rewrite Kd. reflexivity.
  - (* parameter *) destruct ps as [|p [|p' ps]]; [apply T| |apply T]. cbn [List.length Nat.eqb]. rewrite Cn. unfold w0, par_init, check_params.
    destruct (k_nparams kx) as [[|[|m]]|]; cbn [List.length Nat.eqb]; try (eexists [y0]; reflexivity). cbv [mbind ret].
    rewrite Upd. rewrite (Ini _ [p]) by reflexivity.
    destruct (miscounted kx (List.length l)); [now eexists [_]|]. unfold new_op. rewrite Kd. reflexivity.
  - (* controlled *) assert (G : match (if Nat.eqb (List.length l) 0 then Some TypeError else miscounted kx (List.length l)) with
      | None => unit_of (construct ptrue k None (AQ (Some l))) w = (with_new w c x (w_op w) (new_op k kx ps l), Ok tt)
      | Some e => exists ys, unit_of (construct ptrue k None (AQ (Some l))) w = (set_op w (w_op w ++ ys), Err e) end).
    { rewrite Cn. unfold w0. destruct l as [|q l]; [cbn [List.length Nat.eqb split_args nonempty]|].
      - cbv [mbind]. rewrite Upd, (init_none _ a) by (destruct I; assumption). now eexists [_].
      - rewrite split_some. cbn [Nat.eqb List.length]. cbv [mbind]. rewrite Upd, (Ini _ []) by reflexivity.
        change (S (List.length l)) with (List.length (q :: l)). destruct (miscounted kx (List.length (q :: l))); [now eexists [_]|]. unfold new_op. rewrite Kd. reflexivity. }
    destruct ps as [|p1 [|p2 [|p3 ps]]]; cbn [List.length Nat.leb]; try exact G; apply T.
  - (* parameter and control *)
    assert (G : forall p ps', ps = p :: ps' -> match (match k_nparams kx with Some 1 => if Nat.eqb (List.length l) 0 then Some TypeError else miscounted kx (List.length l) | _ => Some ValueError end) with
      | None => unit_of (construct ptrue k (Some [PNum p]) (AQ (Some l))) w = (with_new w c x (w_op w) (new_op k kx ps l), Ok tt)
      | Some e => exists ys, unit_of (construct ptrue k (Some [PNum p]) (AQ (Some l))) w = (set_op w (w_op w ++ ys), Err e) end).
    { intros p ps' ->. rewrite Cn. unfold w0, par_init, check_params.
      assert (Sp : exists ctl tgt qa, split_args kx (AQ (Some l)) = (ctl, tgt, qa) /\ (l = [] -> qa = None) /\ (l <> [] -> qa = Some l /\ ctl = Some (take (k_ncontrol kx) l) /\ tgt = Some (drop (k_ncontrol kx) l))).
      { destruct l; [exists None, None, None|rewrite split_some; do 3 eexists]; split; try reflexivity; split; auto; congruence. }
      destruct Sp as (ctl & tgt & qa & -> & S1 & S2).
      destruct (k_nparams kx) as [[|[|m]]|]; cbn [List.length Nat.eqb]; try (cbv [mbind raise]; rewrite Upd; now eexists [_]).
      cbv [mbind ret]. rewrite !Upd. destruct l as [|q l]; [rewrite S1 by reflexivity; rewrite (init_none _ a) by (destruct I; assumption); now eexists [_]|].
      destruct S2 as (-> & -> & ->); [discriminate|]. rewrite (Ini _ [p]) by reflexivity. cbn [Nat.eqb List.length]. change (S (List.length l)) with (List.length (q :: l)).
      destruct (miscounted kx (List.length (q :: l))); [now eexists [_]|].
      unfold with_new, new_op. rewrite Kd. cbn [has_params firstn map]. 
      rewrite (upd_op_run P _ _ _ (mkOp k (Some (q :: l)) (Some (match k_numq kx with Some n => n | None => List.length (q :: l) end)) [PNum p] (Some (take (k_ncontrol kx) (q :: l))) (Some (drop (k_ncontrol kx) (q :: l))) None None)) by (cbn; apply nth_end).
      cbn [set_op set_circ w_op]. rewrite set_nth_end. reflexivity. }
    destruct ps as [|p1 [|p2 [|p3 [|p4 ps]]]]; cbn [List.length Nat.leb andb]; try (exact (G _ _ eq_refl)); apply T.
  - (* measurement *) destruct ps as [|p ps]; apply T.
Qed.
End Steps.

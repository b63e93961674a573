(** Which parameters are bound where. *)
From Coq Require Import List Arith Bool Lia NArith.
From Verif Require Import Py CRing UnitaryModel WorldModel WorldInv CustomModel CustomSpec.
Import ListNotations.

Section CustomProofs.
Variable C P : Type.
Variable K : cring.
Variable view : C -> list (arg P) -> option (list nat) -> res (uop K).
Notation arg := (arg P).
Notation cop := (cop C P).
Notation pcircuit := (pcircuit C P).
Notation nums := (map (Num P)).

(** ** One operation *)
Lemma fill_nums args ps : vars P args = [] -> fill P args ps = Ok (args, ps).
Proof. induction args as [|[p|v] args IH]; cbn; intros H; [reflexivity| |discriminate]. unfold bind. now rewrite IH. Qed.
Lemma fill_short : forall args ps, length ps < length (vars P args) -> fill P args ps = Err IndexError.
Proof.
  induction args as [|[p|v] args IH]; cbn; intros ps H; [lia| |]; unfold bind; [now rewrite IH|]. destruct ps as [|q ps]; [reflexivity|]. cbn in H. rewrite IH by (fold (vars P args) in H; lia). reflexivity.
Qed.
Lemma fill_long : forall args ps, length (vars P args) <= length ps -> exists args', fill P args (nums ps) = Ok (args', nums (skipn (length (vars P args)) ps)) /\ vars P args' = [].
Proof.
  induction args as [|[p|v] args IH]; intros ps H; cbn [fill].
  - exists []. auto.
  - destruct (IH ps H) as (a & E & V). unfold bind. rewrite E. exists (Num P p :: a). auto.
  - destruct ps as [|q ps]; [cbn in H; lia|]. cbn [map]. destruct (IH ps) as (a & E & V); [cbn in H; fold (vars P args) in H; lia|]. unfold bind. rewrite E. exists (Num P q :: a). auto.
Qed.
(** What is filled in agrees with values of variables if these are the parameters in order, and only then. *)
Lemma fill_agrees (f : arg -> arg) : (forall p, f (Num P p) = Num P p) -> forall args ps r,
  fill P args ps = Ok (map f args, r) <-> exists used, ps = used ++ r /\ map (fun v => f (Var P v)) (vars P args) = used.
Proof.
  intros Hf. induction args as [|[p|v] args IH]; intros ps r; cbn [fill map].
  - split; [intros [= ->]; exists []; auto|intros (u & -> & E); cbn in E; subst; reflexivity].
  - rewrite Hf. change (vars P (Num P p :: args)) with (vars P args). rewrite <- IH. unfold bind. destruct (fill P args ps) as [[a b]|]; [|split; discriminate]. cbn [fst snd]. split; [intros [= -> ->]; reflexivity|intros [= -> ->]; reflexivity].
  - change (vars P (Var P v :: args)) with (v :: vars P args). destruct ps as [|q ps].
    + split; [discriminate|]. intros (u & E & F). cbn in F. subst u. discriminate E.
    + unfold bind. split.
      * intros H. destruct (fill P args ps) as [[a b]|] eqn:E; [|discriminate]. cbn [fst snd] in H. injection H as E1 E2 E3. subst. destruct (proj1 (IH ps r) E) as (u & Eu & Ev). exists (f (Var P v) :: u). split; [cbn; congruence|]. cbn. congruence.
      * intros (u & Eu & Ev). cbn in Ev. subst u. cbn in Eu. injection Eu as -> Eu. rewrite (proj2 (IH ps r)); [reflexivity|]. eexists. split; [exact Eu|reflexivity].
Qed.

(** ** All operations *)
Lemma firsts_in : forall ids seen i, In i ids -> ~ In i seen -> In i (firsts seen ids).
Proof.
  induction ids as [|j ids IH]; intros seen i H Hs; [destruct H|]. destruct H as [->|H]; cbn.
  - destruct (existsb (Nat.eqb i) seen) eqn:E; [|now left]. apply existsb_exists in E. destruct E as (x & Hx & E). apply Nat.eqb_eq in E. subst. contradiction.
  - destruct (existsb (Nat.eqb j) seen); [now apply IH|]. destruct (Nat.eq_dec j i) as [->|N]; [now left|]. right. apply IH; auto. intros [|]; auto.
Qed.
Lemma firsts_out : forall ids seen i, In i (firsts seen ids) -> ~ In i seen /\ In i ids.
Proof.
  induction ids as [|j ids IH]; intros seen i H; cbn in H; [destruct H|]. destruct (existsb (Nat.eqb j) seen) eqn:E.
  - apply IH in H. destruct H. split; auto. now right.
  - destruct H as [->|H]; [|apply IH in H; destruct H as (H1 & H2); split; [intros Hi; apply H1; now right|now right]]. split; [|now left]. intros Hi. enough (existsb (Nat.eqb i) seen = true) by congruence. apply existsb_exists. exists i. split; [auto|apply Nat.eqb_refl].
Qed.
Lemma firsts_nodup : forall ids seen, NoDup (firsts seen ids).
Proof. induction ids as [|j ids IH]; intros seen; cbn; [constructor|]. destruct (existsb (Nat.eqb j) seen); auto. constructor; auto. intros H. apply firsts_out in H. destruct H as (H & _). apply H. now left. Qed.
Lemma vars_at_set h i o j : j <> i -> vars_at C P (set_nth i o h) j = vars_at C P h j.
Proof. intros H. unfold vars_at. now rewrite set_nth_other by auto. Qed.
Lemma set_back (h : list cop) i o : nth_error h i = Some o -> set_nth i (mkCop C P (co_class C P o) (co_args C P o) (co_qubits C P o)) h = h.
Proof. intros H. destruct o as [a b d]. cbn. now apply set_nth_id. Qed.
(** Operations that occur again do not matter. *)
Lemma fill_firsts : forall ids seen h ps, (forall i, In i seen -> vars_at C P h i = []) -> (forall i, In i ids -> nth_error h i <> None) ->
  fill_ops C P h ids (nums ps) = fill_ops C P h (firsts seen ids) (nums ps).
Proof.
  induction ids as [|i ids IH]; intros seen h ps Hs Hh; [reflexivity|]. cbn [fill_ops firsts]. destruct (nth_error h i) as [o|] eqn:E; [|exfalso; apply (Hh i); [now left|exact E]].
  destruct (existsb (Nat.eqb i) seen) eqn:S.
  - assert (V : vars P (co_args C P o) = []). { apply existsb_exists in S. destruct S as (x & Hx & Ex). apply Nat.eqb_eq in Ex. subst x. specialize (Hs i Hx). unfold vars_at in Hs. now rewrite E in Hs. }
    rewrite fill_nums by exact V. unfold bind. cbn [fst snd]. rewrite set_back by exact E. apply IH; auto. intros j Hj. apply Hh. now right.
  - cbn [fill_ops]. rewrite E. destruct (le_lt_dec (length (vars P (co_args C P o))) (length ps)) as [L|L].
    + destruct (fill_long _ _ L) as (a & Ea & Va). rewrite Ea. unfold bind. cbn [fst snd]. apply IH.
      * intros j [<-|Hj]; [unfold vars_at; rewrite (set_nth_same _ _ _ _ E); exact Va|]. destruct (Nat.eq_dec j i) as [->|N]; [unfold vars_at; rewrite (set_nth_same _ _ _ _ E); exact Va|]. rewrite vars_at_set by auto. auto.
      * intros j Hj. destruct (Nat.eq_dec i j) as [<-|N]; [rewrite (set_nth_same _ _ _ _ E); discriminate|]. rewrite set_nth_other by auto. apply Hh. now right.
    + rewrite fill_short by now rewrite map_length. reflexivity.
Qed.
(** Different operations take their parameters one after the other. *)
Lemma fill_apart (f : arg -> arg) : (forall p, f (Num P p) = Num P p) -> forall ids h ps, NoDup ids -> (forall i, In i ids -> nth_error h i <> None) ->
  let occ := concat (map (vars_at C P h) ids) in
  (exists h', fill_ops C P h ids ps = Ok h' /\ (forall i, In i ids -> nth_error h' i = option_map (fun o => mkCop C P (co_class C P o) (map f (co_args C P o)) (co_qubits C P o)) (nth_error h i)) /\ (forall i, ~ In i ids -> nth_error h' i = nth_error h i)) <->
  exists r, ps = map (fun v => f (Var P v)) occ ++ r.
Proof.
  intros Hf. induction ids as [|i ids IH]; intros h ps Hn Hh; cbn zeta.
  - split; [intros _; exists ps; reflexivity|]. intros _. exists h. split; [reflexivity|]. split; [intros i []|auto].
  - inversion Hn as [|? ? Hi Hn']; subst. cbn [fill_ops map concat]. destruct (nth_error h i) as [o|] eqn:E; [|exfalso; apply (Hh i); [now left|exact E]].
    assert (Vi : vars_at C P h i = vars P (co_args C P o)) by (unfold vars_at; now rewrite E).
    assert (Vo : forall x, map (vars_at C P (set_nth i x h)) ids = map (vars_at C P h) ids) by (intros x; apply map_ext_in; intros j Hj; apply vars_at_set; intros ->; contradiction).
    assert (Hh' : forall x j, In j ids -> nth_error (set_nth i x h) j <> None) by (intros x j Hj; rewrite set_nth_other by (intros ->; contradiction); apply Hh; now right).
    rewrite Vi, map_app. split.
    + intros (h' & H & Hin & Hout). unfold bind in H. destruct (fill P (co_args C P o) ps) as [[a r]|] eqn:F; [|discriminate]. cbn [fst snd] in H.
      set (x := mkCop C P (co_class C P o) a (co_qubits C P o)) in *.
      assert (A : a = map f (co_args C P o)).
      { specialize (Hin i (or_introl eq_refl)). rewrite E in Hin. cbn in Hin.
        assert (G : forall js g q, fill_ops C P g js q = Ok h' -> ~ In i js -> nth_error h' i = nth_error g i).
        { induction js as [|j js IHj]; intros g q Hg Hj; cbn in Hg; [congruence|]. destruct (nth_error g j) as [y|]; [|discriminate]. unfold bind in Hg. destruct (fill P (co_args C P y) q) as [z|]; [|discriminate]. rewrite (IHj _ _ Hg) by (intros ?; apply Hj; now right). rewrite set_nth_other; [reflexivity|]. intros ->. apply Hj. now left. }
        rewrite (G _ _ _ H Hi), (set_nth_same _ _ _ _ E) in Hin. unfold x in Hin. congruence. }
      subst a. apply (fill_agrees f Hf) in F. destruct F as (u & -> & Eu). specialize (IH (set_nth i x h) r Hn' (Hh' x)). cbn zeta in IH. rewrite Vo in IH.
      destruct (proj1 IH) as (r' & Er).
      { exists h'. split; [exact H|]. split.
        - intros j Hj. assert (N : i <> j) by (intros ->; contradiction). rewrite set_nth_other by auto. apply Hin. now right.
        - intros j Hj. destruct (Nat.eq_dec i j) as [<-|N]; [|rewrite set_nth_other by auto; apply Hout; intros [|]; auto]. rewrite (Hin i (or_introl eq_refl)), E, (set_nth_same _ _ _ _ E). reflexivity. }
      exists r'. rewrite Eu, <- app_assoc, <- Er. reflexivity.
    + intros (r & ->). unfold bind. rewrite <- app_assoc.
      rewrite (proj2 (fill_agrees f Hf (co_args C P o) _ (map (fun v => f (Var P v)) (concat (map (vars_at C P h) ids)) ++ r))); [|eexists; split; reflexivity]. cbn [fst snd].
      set (x := mkCop C P (co_class C P o) (map f (co_args C P o)) (co_qubits C P o)).
      specialize (IH (set_nth i x h) (map (fun v => f (Var P v)) (concat (map (vars_at C P h) ids)) ++ r) Hn' (Hh' x)). cbn zeta in IH. rewrite Vo in IH.
      destruct (proj2 IH (ex_intro _ r eq_refl)) as (h' & H & Hin & Hout). exists h'. split; [exact H|]. split.
      * intros j [<-|Hj]; [rewrite (Hout i Hi), (set_nth_same _ _ _ _ E), E; reflexivity|]. rewrite (Hin j Hj), set_nth_other by (intros ->; contradiction). reflexivity.
      * intros j Hj. rewrite Hout by (intros ?; apply Hj; now right). rewrite set_nth_other; [reflexivity|]. intros ->. apply Hj. now left.
Qed.

(** ** Values by index *)
Lemma list_ext {A} : forall l m : list A, (forall k, nth_error l k = nth_error m k) -> l = m.
Proof. induction l as [|x l IH]; intros [|y m] H; [reflexivity|specialize (H 0); discriminate|specialize (H 0); discriminate|]. pose proof (H 0) as E. injection E as ->. f_equal. apply IH. intros k. exact (H (S k)). Qed.
Lemma firstn_lt {A} : forall n (l : list A) k, k < n -> nth_error (firstn n l) k = nth_error l k.
Proof. induction n as [|n IH]; intros [|x l] [|k] H; cbn; try lia; auto. apply IH. lia. Qed.
Lemma lookup_nth : forall register ps v k, NoDup register -> length ps = length register -> nth_error register k = Some v -> lookup_var P v register ps = nth_error ps k.
Proof.
  induction register as [|x register IH]; intros [|p ps] v k Hn Hl Hk; try discriminate; [destruct k; discriminate|]. inversion Hn; subst. destruct k as [|k]; cbn in Hk |- *.
  - injection Hk as ->. now rewrite Nat.eqb_refl.
  - destruct (Nat.eqb v x) eqn:E; [|cbn in Hl; apply IH; auto]. apply Nat.eqb_eq in E. subst. exfalso. apply H1. eapply nth_error_In. eauto.
Qed.
Lemma values_prefix register ps : NoDup register -> length ps = length register -> forall n, n <= length register ->
  map (fun v => value P register ps (Var P v)) (firstn n register) = nums (firstn n ps).
Proof.
  intros Hn Hl n Hle. apply list_ext. intros k. rewrite !nth_error_map. destruct (le_lt_dec n k) as [H|H].
  - rewrite (proj2 (nth_error_None (firstn n register) k)), (proj2 (nth_error_None (firstn n ps) k)); [reflexivity| |]; rewrite firstn_length; lia.
  - rewrite !firstn_lt by auto. destruct (nth_error register k) as [v|] eqn:E; [|apply nth_error_None in E; lia]. destruct (nth_error ps k) as [p|] eqn:E'; [|apply nth_error_None in E'; lia].
    cbn. now rewrite (lookup_nth register ps v k), E'.
Qed.

(** ** The whole binding *)
Lemma out_same : forall ids h ps h' i, fill_ops C P h ids ps = Ok h' -> ~ In i ids -> nth_error h' i = nth_error h i.
Proof.
  induction ids as [|j ids IH]; intros h ps h' i H Hi; cbn in H; [congruence|]. destruct (nth_error h j) as [y|]; [|discriminate]. unfold bind in H. destruct (fill P (co_args C P y) ps) as [z|]; [|discriminate].
  rewrite (IH _ _ _ _ H) by (intros ?; apply Hi; now right). rewrite set_nth_other; [reflexivity|]. intros ->. apply Hi. now left.
Qed.
Lemma right_iff register c ps : whole C P c -> (right_values C P register c ps <-> exists r, nums ps = map (fun v => value P register ps (Var P v)) (occurrences C P c) ++ r).
Proof.
  intros Hw. unfold right_values, occurrences. rewrite (fill_firsts _ [] _ ps); [|intros i []|exact Hw].
  rewrite <- (fill_apart (value P register ps) (fun p => eq_refl) (firsts [] (pc_ops C P c)) (pc_heap C P c) (nums ps) (firsts_nodup _ _)) by (intros i Hi; apply Hw; now apply firsts_out in Hi).
  split; intros (h & H & Hin).
  - exists h. split; [exact H|]. split; [|intros i Hi; eapply out_same; eauto]. intros i Hi. apply firsts_out in Hi. rewrite Hin by apply Hi. cbn. now rewrite nth_error_map.
  - exists h. split; [exact H|]. destruct Hin as (Hin & _). intros i Hi. rewrite Hin by (apply firsts_in; auto). cbn. now rewrite nth_error_map.
Qed.
Lemma bound_right register c ps : whole C P c -> NoDup register -> length ps = length register -> occurrences C P c = firstn (length (occurrences C P c)) register -> right_values C P register c ps.
Proof.
  intros Hw Hn Hl Ho. apply right_iff; [exact Hw|]. set (n := length (occurrences C P c)) in *. assert (n <= length register) by (unfold n at 1; rewrite Ho, firstn_length; lia).
  exists (nums (skipn n ps)). rewrite Ho, values_prefix by auto. now rewrite <- map_app, firstn_skipn.
Qed.
(** Only then: with two different numbers one can tell. *)
Lemma right_bound register c (a b : P) : a <> b -> whole C P c -> (forall ps, length ps = length register -> right_values C P register c ps) ->
  occurrences C P c = firstn (length (occurrences C P c)) register.
Proof.
  intros Hab Hw H. set (occ := occurrences C P c) in *. set (n := length occ).
  assert (V : forall ps, length ps = length register -> exists r, nums ps = map (fun v => value P register ps (Var P v)) occ ++ r) by (intros ps Hl; apply (right_iff register c ps Hw); auto).
  assert (Hle : n <= length register). { destruct (V (repeat a (length register)) (repeat_length _ _)) as (r & E). apply (f_equal (@length _)) in E. rewrite app_length, !map_length, repeat_length in E. unfold n. lia. }
  apply list_ext. intros k. destruct (le_lt_dec n k) as [Hk|Hk].
  - rewrite (proj2 (nth_error_None occ k)) by exact Hk. symmetry. apply nth_error_None. rewrite firstn_length. lia.
  - rewrite firstn_lt by auto. destruct (nth_error occ k) as [v|] eqn:E; [|apply nth_error_None in E; fold n in E; lia].
    (* the number a in place k only *)
    set (ps := map (fun j => if Nat.eqb j k then a else b) (seq 0 (length register))).
    assert (Hl : length ps = length register) by (unfold ps; now rewrite map_length, seq_length). destruct (V ps Hl) as (r & Er).
    apply (f_equal (fun l => nth_error l k)) in Er. rewrite nth_error_app1 in Er by (rewrite map_length; exact Hk). rewrite !nth_error_map, E in Er.
    assert (Np : forall j, j < length register -> nth_error ps j = Some (if Nat.eqb j k then a else b)). { intros j Hj. unfold ps. rewrite nth_error_map, (nth_error_nth' _ 0) by now rewrite seq_length. now rewrite seq_nth. }
    rewrite Np, Nat.eqb_refl in Er by lia. cbn in Er. injection Er as Er.
    assert (L : forall reg qs, lookup_var P v reg qs = Some a -> exists j, nth_error reg j = Some v /\ nth_error qs j = Some a).
    { induction reg as [|x reg IH]; intros [|q qs] Hx; try discriminate. cbn in Hx. destruct (Nat.eqb v x) eqn:Ev; [apply Nat.eqb_eq in Ev; injection Hx as ->; subst; now exists 0|]. destruct (IH _ Hx) as (j & A & B). now exists (S j). }
    destruct (lookup_var P v register ps) as [q|] eqn:El; [|discriminate]. injection Er as <-. destruct (L _ _ El) as (j & Hj & Hp). assert (j < length register) by (apply nth_error_Some; congruence). rewrite Np in Hp by auto.
    destruct (Nat.eqb j k) eqn:Ejk; [apply Nat.eqb_eq in Ejk; now subst|]. congruence.
Qed.

Lemma right_exactly (a b : P) register c : a <> b -> whole C P c -> NoDup register ->
  ((forall ps, length ps = length register -> right_values C P register c ps) <-> occurrences C P c = firstn (length (occurrences C P c)) register).
Proof. intros Hab Hw Hn. split; [now apply (right_bound register c a b)|]. intros Ho ps Hl. now apply bound_right. Qed.

(** ** Matrices *)
Lemma build_same qs h h' : forall ids s, (forall i, In i ids -> nth_error h i = nth_error h' i) -> build_ops C P K view qs h ids s = build_ops C P K view qs h' ids s.
Proof.
  induction ids as [|i ids IH]; intros s H; cbn [build_ops]; [reflexivity|]. rewrite <- (H i (or_introl eq_refl)). destruct (nth_error h i) as [o|]; [|reflexivity]. unfold bind. destruct (view _ _ _); [|reflexivity]. destruct (bu_loop _ _ _ _ _); [|reflexivity]. apply IH. intros j Hj. apply H. now right.
Qed.
Lemma matrix_right register c ps : pc_params C P c = Some register -> right_values C P register c ps ->
  custom_matrix C P K view c (Some (nums ps)) = custom_matrix C P K view (substituted C P register ps c) None.
Proof.
  intros Hp (h & H & Hin). unfold custom_matrix. rewrite Hp. cbn [pc_params substituted]. unfold bind at 1. rewrite H. cbn [pc_qubits pc_ops substituted]. erewrite build_same; [reflexivity|exact Hin].
Qed.
Lemma matrix_bound register c ps : pc_params C P c = Some register -> whole C P c -> NoDup register -> length ps = length register -> occurrences C P c = firstn (length (occurrences C P c)) register ->
  custom_matrix C P K view c (Some (nums ps)) = custom_matrix C P K view (substituted C P register ps c) None.
Proof. intros Hp Hw Hn Hl Ho. apply matrix_right; [exact Hp|]. now apply bound_right. Qed.
Lemma exhausted c register ps : pc_params C P c = Some register -> whole C P c -> length ps < length (occurrences C P c) -> custom_matrix C P K view c (Some (nums ps)) = Err IndexError.
Proof.
  intros Hp Hw Hl. unfold custom_matrix. rewrite Hp. rewrite (fill_firsts _ [] _ ps); [|intros i []|exact Hw].
  enough (E : fill_ops C P (pc_heap C P c) (firsts [] (pc_ops C P c)) (nums ps) = Err IndexError) by (unfold bind; now rewrite E).
  unfold occurrences in Hl. assert (Hh : forall i, In i (firsts [] (pc_ops C P c)) -> nth_error (pc_heap C P c) i <> None) by (intros i Hi; apply Hw; now apply firsts_out in Hi).
  pose proof (firsts_nodup (pc_ops C P c) []) as Hn. revert Hn Hh Hl. generalize (firsts [] (pc_ops C P c)) (pc_heap C P c). intros ids. revert ps.
  induction ids as [|i ids IH]; intros ps h Hn Hh Hl; [cbn in Hl; lia|]. inversion Hn as [|? ? Hi Hn']; subst. cbn [fill_ops]. destruct (nth_error h i) as [o|] eqn:E; [|exfalso; apply (Hh i); [now left|exact E]].
  cbn [map concat] in Hl. rewrite app_length in Hl. assert (Vi : vars_at C P h i = vars P (co_args C P o)) by (unfold vars_at; now rewrite E). rewrite Vi in Hl.
  destruct (le_lt_dec (length (vars P (co_args C P o))) (length ps)) as [L|L]; [|rewrite fill_short by (now rewrite map_length); reflexivity].
  destruct (fill_long _ _ L) as (a & Ea & _). rewrite Ea. unfold bind. cbn [fst snd]. apply IH; [exact Hn'| |].
  - intros j Hj. rewrite set_nth_other by (intros ->; contradiction). apply Hh. now right.
  - rewrite skipn_length. assert (Vo : forall x, map (vars_at C P (set_nth i x h)) ids = map (vars_at C P h) ids) by (intros x; apply map_ext_in; intros j Hj; apply vars_at_set; intros ->; contradiction). rewrite Vo. lia.
Qed.
End CustomProofs.

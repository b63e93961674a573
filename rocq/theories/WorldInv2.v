(** The structural invariant and its preservation. *)
From Coq Require Import List ZArith String Bool Arith Lia.
From Verif Require Import Py RegisterModel RegisterSpec RegisterProofs WorldModel WorldSpec WorldReg WorldInv.
Import ListNotations.
Local Open Scope nat_scope.

Section Inv.
Variable P : Type.
Variable ptrue : P -> bool.
Variable peqb : P -> P -> bool.
Notation world := (world P).
Notation M := (M P).

(** One half of a circuit: registers of distinct items and, unless all registers have been dropped, a
    cached view that lists them. *)
Record side_ok (good : item -> Prop) (s : side) : Prop := {
  so_regs : regs_ok good (s_regs s);
  so_cache : forall r, s_cache s = Some r ->
    regok r /\ Forall good (contents r) /\ (s_regs s <> [] -> contents r = all_items (s_regs s))
}.

Definition JQ (w : world) : Prop := Forall (side_ok (gq (List.length (w_qubit w)))) (map c_q (w_circ w)).
Definition JB (w : world) : Prop := Forall (side_ok (gb (List.length (w_bit w)))) (map c_b (w_circ w)).

Definition mono (w w' : world) : Prop :=
  List.length (w_qubit w) <= List.length (w_qubit w') /\ List.length (w_bit w) <= List.length (w_bit w').

Lemma mono_refl w : mono w w.
Proof. split; lia. Qed.
Lemma mono_trans a b c : mono a b -> mono b c -> mono a c.
Proof. intros [? ?] [? ?]; split; lia. Qed.

Lemma small_mono w w' : mono w w' -> small P w' -> small P w.
Proof. intros [H1 H2] [S1 S2]. split; eapply ssize_le; eauto. Qed.

Lemma side_ok_weaken (g h : item -> Prop) s : (forall v, g v -> h v) -> side_ok g s -> side_ok h s.
Proof.
  intros H [A B]. constructor; [eapply regs_ok_weaken; eauto|].
  intros r Hr. destruct (B r Hr) as (R & G & E). split; [auto|split; [|auto]].
  eapply Forall_impl; [|exact G]. auto.
Qed.

Lemma JQ_mono w w' : List.length (w_qubit w) <= List.length (w_qubit w') ->
  map c_q (w_circ w') = map c_q (w_circ w) -> JQ w -> JQ w'.
Proof.
  intros H E. unfold JQ. rewrite E. apply Forall_impl. intros s. apply side_ok_weaken. intros v. now apply gq_mono.
Qed.
Lemma JB_mono w w' : List.length (w_bit w) <= List.length (w_bit w') ->
  map c_b (w_circ w') = map c_b (w_circ w) -> JB w -> JB w'.
Proof.
  intros H E. unfold JB. rewrite E. apply Forall_impl. intros s. apply side_ok_weaken. intros v. now apply gb_mono.
Qed.

Lemma JQ_nth w c x : JQ w -> nth_error (w_circ w) c = Some x -> side_ok (gq (List.length (w_qubit w))) (c_q x).
Proof. intros H E. eapply Forall_nth; [exact H|]. rewrite nth_map, E. reflexivity. Qed.
Lemma JB_nth w c x : JB w -> nth_error (w_circ w) c = Some x -> side_ok (gb (List.length (w_bit w))) (c_b x).
Proof. intros H E. eapply Forall_nth; [exact H|]. rewrite nth_map, E. reflexivity. Qed.

(** ** Running code and the circuits it leaves *)

Lemma get_circ_some c (w : world) x : nth_error (w_circ w) c = Some x -> get_circ c w = (w, Ok x).
Proof. intros H. unfold get_circ. now rewrite H. Qed.
Lemma get_circ_none c (w : world) : nth_error (w_circ w) c = None -> get_circ c w = (w, Err Undefined).
Proof. intros H. unfold get_circ. now rewrite H. Qed.

Lemma bind_ok {A B} (m : M A) (k : A -> M B) w w' a : m w = (w', Ok a) -> mbind m k w = k a w'.
Proof. intros H. unfold mbind. now rewrite H. Qed.
Lemma bind_err {A B} (m : M A) (k : A -> M B) w w' e : m w = (w', Err e) -> mbind m k w = (w', Err e).
Proof. intros H. unfold mbind. now rewrite H. Qed.

Lemma upd_circ_run c f (w : world) x : nth_error (w_circ w) c = Some x ->
  upd_circ c f w = (set_circ w (set_nth c (f x) (w_circ w)), Ok tt).
Proof. intros H. unfold upd_circ. rewrite (bind_ok _ _ _ _ _ (get_circ_some c w x H)). reflexivity. Qed.

(** [m] only makes more qubits and bits. *)
Definition grows {A} (m : M A) : Prop := forall w, mono w (fst (m w)).

(** [m] keeps [I], as long as the number of qubits and bits fits the machine word. *)
Definition keeps (I : world -> Prop) {A} (m : M A) : Prop :=
  grows m /\ forall w, small P (fst (m w)) -> I w -> I (fst (m w)).

(** What [I] speaks about. *)
Definition same (w w' : world) : Prop :=
  map c_q (w_circ w') = map c_q (w_circ w) /\ map c_b (w_circ w') = map c_b (w_circ w) /\
  List.length (w_qubit w') = List.length (w_qubit w) /\ w_bit w' = w_bit w.

Lemma same_mono w w' : same w w' -> mono w w'.
Proof. intros (_ & _ & E1 & E2). split; [lia|rewrite E2; lia]. Qed.

Section Keeps.
Variable I : world -> Prop.
Hypothesis I_same : forall w w', same w w' -> I w -> I w'.

Lemma keeps_bind {A B} (m : M A) (k : A -> M B) : keeps I m -> (forall a, keeps I (k a)) -> keeps I (mbind m k).
Proof.
  intros [G K] H. split.
  - intros w. unfold mbind. specialize (G w). destruct (m w) as [w' [a|e]]; simpl in *; [|auto].
    eapply mono_trans; [exact G|]. apply (H a).
  - intros w S Hj. unfold mbind in *. specialize (K w). specialize (G w).
    destruct (m w) as [w' [a|e]]; simpl in *; [|auto].
    apply (H a); [auto|]. apply K; [|auto]. eapply small_mono; [|exact S]. apply (H a).
Qed.

Lemma keeps_same {A} (m : M A) : (forall w, same w (fst (m w))) -> keeps I m.
Proof.
  intros H. split; intros w; [now apply same_mono|]. intros _. now apply I_same.
Qed.

Lemma same_refl w : same w w.
Proof. repeat split. Qed.

Lemma keeps_ret {A} (a : A) : keeps I (ret a). Proof. apply keeps_same. intros. apply same_refl. Qed.
Lemma keeps_raise {A} e : keeps I (@raise P A e). Proof. apply keeps_same. intros. apply same_refl. Qed.
Lemma keeps_lift {A} (r : res A) : keeps I (lift r). Proof. apply keeps_same. intros. apply same_refl. Qed.
Lemma keeps_read {A} (f : world -> A) : keeps I (read f). Proof. apply keeps_same. intros. apply same_refl. Qed.
Lemma keeps_the {A} (o : option A) : keeps I (@the P A o). Proof. apply keeps_same. intros. destruct o; apply same_refl. Qed.
Lemma keeps_get_circ c : keeps I (@get_circ P c).
Proof. apply keeps_same. intros w. unfold get_circ. destruct (nth_error (w_circ w) c); apply same_refl. Qed.
Lemma keeps_get_op o : keeps I (@get_op P o).
Proof. apply keeps_same. intros w. unfold get_op. destruct (nth_error (w_op w) o); apply same_refl. Qed.
Lemma keeps_get_cls c : keeps I (@get_cls P c).
Proof. apply keeps_same. intros w. unfold get_cls. destruct (nth_error (w_cls w) c); apply same_refl. Qed.
Lemma keeps_get_ctx c : keeps I (@get_ctx P c).
Proof. apply keeps_same. intros w. unfold get_ctx. destruct (nth_error (w_ctx w) c); apply same_refl. Qed.
Lemma keeps_put_op o x : keeps I (@put_op P o x).
Proof. apply keeps_same. intros. repeat split. Qed.
Lemma keeps_upd_op o f : keeps I (@upd_op P o f).
Proof. apply keeps_bind; [apply keeps_get_op|]. intros a. apply keeps_put_op. Qed.
Lemma keeps_when b (m : M unit) : keeps I m -> keeps I (when b m).
Proof. destruct b; simpl; auto using keeps_ret. Qed.
Lemma keeps_iterM {A} (f : A -> M unit) l : (forall a, keeps I (f a)) -> keeps I (iterM f l).
Proof. intros H. induction l; simpl; [apply keeps_ret|]. apply keeps_bind; auto. Qed.
Lemma keeps_fun {A} (f : world -> M A) : (forall v, keeps I (f v)) -> keeps I (fun w => f w w).
Proof.
  intros H. split; intros w; [apply (H w)|]. intros S Hi. apply (H w); auto.
Qed.

Lemma map_set_nth_same {B} (f : circ -> B) c x y l :
  nth_error l c = Some x -> f y = f x -> map f (set_nth c y l) = map f l.
Proof. intros E H. rewrite set_nth_map, H. apply set_nth_id. now rewrite nth_map, E. Qed.

Lemma keeps_upd_circ c f :
  (forall x, c_q (f x) = c_q x) -> (forall x, c_b (f x) = c_b x) -> keeps I (@upd_circ P c f).
Proof.
  intros H1 H2. apply keeps_same. intros w. destruct (nth_error (w_circ w) c) as [x|] eqn:E.
  - rewrite (upd_circ_run c f w x E). cbn. split; [|split; [|split; reflexivity]].
    + cbn. eapply map_set_nth_same; eauto.
    + cbn. eapply map_set_nth_same; eauto.
  - unfold upd_circ. rewrite (bind_err _ _ _ _ _ (get_circ_none c w E)). apply same_refl.
Qed.

Lemma keeps_var_put v x : keeps I (@var_put P v x).
Proof. apply keeps_same. intros w. unfold var_put. destruct (nth_error (w_var w) v) as [[s o]|]; repeat split. Qed.
Lemma keeps_new_var s : keeps I (@new_var P s).
Proof. apply keeps_same. intros w. repeat split. Qed.
Lemma keeps_settle k : keeps I (@settle P k).
Proof.
  apply keeps_bind; [apply keeps_get_cls|]. intros x.
  apply keeps_same. intros w.
  destruct (k_kind x), (negb (nonzero (k_numq x)) && nonzero (k_ncontrol x) && nonzero (k_ntarget x)),
    (k_ncontrol x), (k_ntarget x); repeat split.
Qed.
End Keeps.

(** ** Reading circuit.qubits and circuit.bits *)

Lemma side_eta s : mkSide (s_regs s) (s_cache s) = s.
Proof. destruct s; reflexivity. Qed.
Lemma with_q_same x : with_q x (c_q x) = x.
Proof. destruct x; reflexivity. Qed.
Lemma with_b_same x : with_b x (c_b x) = x.
Proof. destruct x; reflexivity. Qed.
Lemma set_circ_same (w : world) : set_circ w (w_circ w) = w.
Proof. destruct w; reflexivity. Qed.

Definition cached_q (w : world) (c : nat) (x : circ) (r : register) : world :=
  set_circ w (set_nth c (with_q x (mkSide (s_regs (c_q x)) (Some r))) (w_circ w)).
Definition cached_b (w : world) (c : nat) (x : circ) (r : register) : world :=
  set_circ w (set_nth c (with_b x (mkSide (s_regs (c_b x)) (Some r))) (w_circ w)).

Lemma qubits_run c w x :
  JQ w -> small P w -> nth_error (w_circ w) c = Some x ->
  exists r, qubits c w = (cached_q w c x r, Ok r) /\ regok r /\
    Forall (gq (List.length (w_qubit w))) (contents r) /\
    (s_cache (c_q x) = None \/ s_regs (c_q x) <> [] -> contents r = circuit_qubits x) /\
    (forall r', s_cache (c_q x) = Some r' -> r = r').
Proof.
  intros Hj [S1 S2] E. pose proof (JQ_nth _ _ _ Hj E) as [A B].
  unfold qubits. rewrite (bind_ok _ _ _ _ _ (get_circ_some c w x E)).
  destruct (s_cache (c_q x)) as [r|] eqn:Ec.
  - destruct (B r eq_refl) as (R & G & K). exists r. unfold cached_q.
    rewrite <- Ec, side_eta, with_q_same, set_nth_id, set_circ_same by exact E.
    split; [reflexivity|split; [auto|split; [auto|split]]].
    + intros [H|H]; [congruence|auto].
    + intros r' H. congruence.
  - unfold read, lift, mbind.
    destruct (concat_regs_seen (w_bit w) _ (List.length (w_qubit w)) (s_regs (c_q x)) (s_cache (c_q x)) A)
      as (r & Er & R & T & Cr).
    { intros v. apply gq_prim. }
    { apply gq_bound; [apply (ro_nodup _ _ A)|apply (ro_good _ _ A)]. }
    { exact S1. }
    rewrite side_eta in Er. rewrite Er. exists r.
    rewrite seen_qubits in Cr.
    2: { eapply Forall_impl; [|apply (ro_good _ _ A)]. intros v (q & -> & _). now exists q. }
    split; [reflexivity|split; [auto|split; [|split]]].
    + rewrite Cr. apply (ro_good _ _ A).
    + intros _. exact Cr.
    + discriminate.
Qed.

Lemma qubits_undefined c (w : world) : nth_error (w_circ w) c = None -> qubits c w = (w, Err Undefined).
Proof. intros H. unfold qubits. now rewrite (bind_err _ _ _ _ _ (get_circ_none c w H)). Qed.
Lemma bits_undefined c (w : world) : nth_error (w_circ w) c = None -> bits c w = (w, Err Undefined).
Proof. intros H. unfold bits. now rewrite (bind_err _ _ _ _ _ (get_circ_none c w H)). Qed.

(** No bit of a circuit holds its own position as value. *)
Lemma seen_clear bs l : forall n,
  (forall i v, nth_error l i = Some v -> numeq bs v (zn (n + i)) = false) -> seen_from bs n l = l.
Proof.
  induction l as [|v l IH]; intros n H; simpl; [reflexivity|]. f_equal.
  - unfold seen. specialize (H 0 v eq_refl). rewrite Nat.add_0_r in H. now rewrite H.
  - apply IH. intros i u Hi. rewrite <- (H (S i) u Hi). f_equal. lia.
Qed.

Lemma clear_seen w x : clear_at P w x -> Forall is_bit (circuit_bits x) ->
  seen_from (w_bit w) 0 (circuit_bits x) = circuit_bits x.
Proof.
  intros Hc F. apply seen_clear. intros i v Hi. simpl.
  assert (Hv : is_bit v) by (rewrite Forall_forall in F; apply F; eapply nth_error_In; eauto).
  destruct Hv as [b ->]. specialize (Hc i b Hi). unfold bit_value in Hc. unfold numeq.
  destruct (nth_error (w_bit w) b) as [[l [v|]]|]; auto. specialize (Hc v eq_refl).
  apply Z.eqb_neq. intros H. apply Hc. destruct v; lia.
Qed.

Lemma bits_run c w x :
  JB w -> small P w -> nth_error (w_circ w) c = Some x ->
  exists r, ((s_cache (c_b x) = None -> clear_at P w x) -> Forall (gb (List.length (w_bit w))) (contents r)) /\
    bits c w = (cached_b w c x r, Ok r) /\ regok r /\
    (s_cache (c_b x) = None -> contents r = seen_from (w_bit w) 0 (circuit_bits x)) /\
    ((s_cache (c_b x) = None -> clear_at P w x) -> s_cache (c_b x) = None \/ s_regs (c_b x) <> [] ->
     contents r = circuit_bits x) /\
    (forall r', s_cache (c_b x) = Some r' -> r = r').
Proof.
  intros Hj [S1 S2] E. pose proof (JB_nth _ _ _ Hj E) as [A B].
  unfold bits. rewrite (bind_ok _ _ _ _ _ (get_circ_some c w x E)).
  destruct (s_cache (c_b x)) as [r|] eqn:Ec.
  - destruct (B r eq_refl) as (R & G & K). exists r. unfold cached_b.
    rewrite <- Ec, side_eta, with_b_same, set_nth_id, set_circ_same by exact E.
    split; [auto|split; [reflexivity|split; [auto|split; [|split]]]].
    + intros H; congruence.
    + intros _ [H|H]; [congruence|auto].
    + intros r' H. congruence.
  - unfold read, lift, mbind.
    destruct (concat_regs_seen (w_bit w) _ (List.length (w_bit w)) (s_regs (c_b x)) (s_cache (c_b x)) A)
      as (r & Er & R & T & Cr).
    { intros v. apply gb_prim. }
    { apply gb_bound; [apply (ro_nodup _ _ A)|apply (ro_good _ _ A)]. }
    { exact S2. }
    rewrite side_eta in Er. rewrite Er. exists r. fold (circuit_bits x) in Cr.
    assert (K : clear_at P w x -> contents r = circuit_bits x).
    { intros Hc. rewrite Cr. apply clear_seen; [exact Hc|].
      eapply Forall_impl; [|apply (ro_good _ _ A)]. intros v (q & -> & _). now exists q. }
    split; [|split; [reflexivity|split; [auto|split; [auto|split; [|discriminate]]]]].
    2: { intros H _. apply K. auto. }
    intros H. rewrite (K (H eq_refl)). apply (ro_good _ _ A).
Qed.

Lemma grows_qubits c : grows (@qubits P c).
Proof.
  intros w. unfold qubits, mbind. destruct (nth_error (w_circ w) c) as [x|] eqn:E;
    [rewrite (get_circ_some c w x E)|rewrite (get_circ_none c w E); apply mono_refl].
  destruct (s_cache (c_q x)); [apply mono_refl|]. unfold read, lift.
  destruct (concat_regs (w_bit w) (c_q x)); split; apply le_n.
Qed.
Lemma grows_bits c : grows (@bits P c).
Proof.
  intros w. unfold bits, mbind. destruct (nth_error (w_circ w) c) as [x|] eqn:E;
    [rewrite (get_circ_some c w x E)|rewrite (get_circ_none c w E); apply mono_refl].
  destruct (s_cache (c_b x)); [apply mono_refl|]. unfold read, lift.
  destruct (concat_regs (w_bit w) (c_b x)); split; apply le_n.
Qed.

Lemma JQ_put (w : world) c x s : JQ w -> nth_error (w_circ w) c = Some x ->
  side_ok (gq (List.length (w_qubit w))) s -> JQ (set_circ w (set_nth c (with_q x s) (w_circ w))).
Proof. intros Hj E H. unfold JQ. cbn. rewrite set_nth_map. apply set_nth_Forall; auto. Qed.
Lemma JB_put (w : world) c x s : JB w -> nth_error (w_circ w) c = Some x ->
  side_ok (gb (List.length (w_bit w))) s -> JB (set_circ w (set_nth c (with_b x s) (w_circ w))).
Proof. intros Hj E H. unfold JB. cbn. rewrite set_nth_map. apply set_nth_Forall; auto. Qed.

(** Putting back a circuit that differs only in its quantum half leaves the classical half. *)
Lemma put_q_b (w : world) c x s : nth_error (w_circ w) c = Some x ->
  map c_b (w_circ (set_circ w (set_nth c (with_q x s) (w_circ w)))) = map c_b (w_circ w).
Proof. intros E. cbn. eapply map_set_nth_same; eauto. Qed.
Lemma put_b_q (w : world) c x s : nth_error (w_circ w) c = Some x ->
  map c_q (w_circ (set_circ w (set_nth c (with_b x s) (w_circ w)))) = map c_q (w_circ w).
Proof. intros E. cbn. eapply map_set_nth_same; eauto. Qed.

(** [clear] depends on the classical registers and the bit values only, and asks less of cached views. *)
Lemma clear_at_same (w w' : world) x y :
  s_regs (c_b x) = s_regs (c_b y) -> w_bit w' = w_bit w -> clear_at P w x -> clear_at P w' y.
Proof.
  intros E1 E2 Hc i b H1 v. unfold bit_value. rewrite E2. fold (bit_value P w b). apply Hc.
  unfold circuit_bits in *. now rewrite E1.
Qed.
Lemma clear_same (w w' : world) : map c_b (w_circ w') = map c_b (w_circ w) ->
  w_bit w' = w_bit w -> clear P w -> clear P w'.
Proof.
  intros E1 E2 Hc c x H1 H2.
  assert (H : nth_error (map c_b (w_circ w')) c = Some (c_b x)) by now rewrite nth_map, H1.
  rewrite E1, nth_map in H. destruct (nth_error (w_circ w) c) as [y|] eqn:Ey; [|discriminate].
  simpl in H. injection H as H. apply (clear_at_same w w' y x); [now rewrite H|auto|].
  apply (Hc c y Ey). now rewrite H.
Qed.

Lemma clear_put (w : world) c x s : clear P w -> nth_error (w_circ w) c = Some x ->
  all_items (s_regs s) = circuit_bits x -> (s_cache s = None -> clear_at P w x) ->
  clear P (set_circ w (set_nth c (with_b x s) (w_circ w))).
Proof.
  intros Hc E Hs Hn c' y Ey Hy. cbn in Ey.
  destruct (Nat.eq_dec c c') as [<-|Hd].
  - rewrite (set_nth_same _ _ _ _ E) in Ey. injection Ey as <-. cbn in Hy. specialize (Hn Hy).
    intros i b Hi. apply (Hn i b). unfold circuit_bits in Hi. cbn in Hi. now rewrite Hs in Hi.
  - rewrite set_nth_other in Ey by exact Hd. apply (Hc c' y Ey Hy).
Qed.

Definition IB (w : world) : Prop := JB w /\ clear P w.

Lemma JQ_same w w' : same w w' -> JQ w -> JQ w'.
Proof. intros (E1 & _ & E2 & _). apply JQ_mono; [lia|auto]. Qed.
Lemma IB_same w w' : same w w' -> IB w -> IB w'.
Proof.
  intros (_ & E1 & _ & E2) [H1 H2]. split.
  - revert H1. apply JB_mono; [rewrite E2; lia|auto].
  - revert H2. now apply clear_same.
Qed.

Lemma keepsQ_qubits c : keeps JQ (@qubits P c).
Proof.
  split; [apply grows_qubits|]. intros w S Hj.
  assert (Sw : small P w) by (eapply small_mono; [apply grows_qubits|exact S]).
  destruct (nth_error (w_circ w) c) as [x|] eqn:E; [|rewrite (qubits_undefined c w E); exact Hj].
  destruct (qubits_run c w x Hj Sw E) as (r & -> & R & G & K & _). cbn. apply JQ_put; auto.
  pose proof (JQ_nth _ _ _ Hj E) as [A B]. constructor; [exact A|]. cbn. intros r' [= <-]. auto.
Qed.

Lemma bits_any c (w : world) :
  fst (bits c w) = w \/ exists x r, nth_error (w_circ w) c = Some x /\ fst (bits c w) = cached_b w c x r.
Proof.
  unfold bits. destruct (nth_error (w_circ w) c) as [x|] eqn:E;
    [rewrite (bind_ok _ _ _ _ _ (get_circ_some c w x E))|rewrite (bind_err _ _ _ _ _ (get_circ_none c w E)); auto].
  destruct (s_cache (c_b x)); [auto|]. unfold read, lift, mbind.
  destruct (concat_regs (w_bit w) (c_b x)); [right|left; reflexivity]. exists x. eexists. split; reflexivity.
Qed.
Lemma qubits_any c (w : world) :
  fst (qubits c w) = w \/ exists x r, nth_error (w_circ w) c = Some x /\ fst (qubits c w) = cached_q w c x r.
Proof.
  unfold qubits. destruct (nth_error (w_circ w) c) as [x|] eqn:E;
    [rewrite (bind_ok _ _ _ _ _ (get_circ_some c w x E))|rewrite (bind_err _ _ _ _ _ (get_circ_none c w E)); auto].
  destruct (s_cache (c_q x)); [auto|]. unfold read, lift, mbind.
  destruct (concat_regs (w_bit w) (c_q x)); [right|left; reflexivity]. exists x. eexists. split; reflexivity.
Qed.

Lemma keepsQ_bits c : keeps JQ (@bits P c).
Proof.
  split; [apply grows_bits|]. intros w S. destruct (bits_any c w) as [->|(x & r & E & ->)]; [auto|].
  apply JQ_mono; [apply le_n|]. now apply put_b_q.
Qed.
Lemma keepsB_qubits c : keeps IB (@qubits P c).
Proof.
  split; [apply grows_qubits|]. intros w S. destruct (qubits_any c w) as [->|(x & r & E & ->)]; [auto|].
  intros [Hj Hc]. split.
  - revert Hj. apply JB_mono; [apply le_n|]. now apply put_q_b.
  - revert Hc. apply clear_same; [|reflexivity]. now apply put_q_b.
Qed.
Lemma keepsB_bits c : keeps IB (@bits P c).
Proof.
  split; [apply grows_bits|]. intros w S [Hj Hc].
  assert (Sw : small P w) by (eapply small_mono; [apply grows_bits|exact S]).
  destruct (nth_error (w_circ w) c) as [x|] eqn:E; [|rewrite (bits_undefined c w E); split; auto].
  destruct (bits_run c w x Hj Sw E) as (r & G & -> & R & _ & K & _). cbn. split.
  - pose proof (Hc c x E) as Hcx.
    apply JB_put; auto. pose proof (JB_nth _ _ _ Hj E) as [A B]. constructor; [exact A|].
    cbn. intros r' [= <-]. auto.
  - eapply clear_put; eauto. cbn. discriminate.
Qed.

(** ** Making qubits and bits *)

Lemma clear_at_more (w : world) bs c x : JB w -> nth_error (w_circ w) c = Some x ->
  clear_at P w x -> clear_at P (set_bit w (w_bit w ++ bs)) x.
Proof.
  intros Hj E Hc i b Hi v. unfold bit_value. cbn.
  pose proof (JB_nth _ _ _ Hj E) as [A _]. pose proof (ro_good _ _ A) as G.
  rewrite Forall_forall in G. destruct (G (IBit b)) as (b' & [= <-] & Hb); [eapply nth_error_In; exact Hi|].
  rewrite nth_error_app1 by exact Hb. apply (Hc i b Hi).
Qed.
Lemma clear_more (w : world) bs : JB w -> clear P w -> clear P (set_bit w (w_bit w ++ bs)).
Proof. intros Hj Hc c x E Hn. eapply clear_at_more; eauto. Qed.

Lemma new_qubits_run n : forall a (w : world),
  new_qubits a n w = (set_qubit w (w_qubit w ++ map (fun i => LStr (py_str i)) (seq a n)),
                      Ok (map IQubit (seq (List.length (w_qubit w)) n))).
Proof.
  induction n as [|n IH]; intros a w; simpl.
  - rewrite app_nil_r. destruct w; reflexivity.
  - unfold mbind at 1. cbn [new_qubit]. unfold mbind. rewrite IH. cbn. rewrite app_length. simpl.
    rewrite <- app_assoc. cbn. rewrite Nat.add_1_r. reflexivity.
Qed.
Lemma new_bits_run n : forall a (w : world),
  new_bits a n w = (set_bit w (w_bit w ++ map (fun i => (LStr (py_str i), None)) (seq a n)),
                      Ok (map IBit (seq (List.length (w_bit w)) n))).
Proof.
  induction n as [|n IH]; intros a w; simpl.
  - rewrite app_nil_r. destruct w; reflexivity.
  - unfold mbind at 1. cbn [new_bit]. unfold mbind. rewrite IH. cbn. rewrite app_length. simpl.
    rewrite <- app_assoc. cbn. rewrite Nat.add_1_r. reflexivity.
Qed.

Lemma mono_set_qubit (w : world) l : mono w (set_qubit w (w_qubit w ++ l)).
Proof. split; cbn; [rewrite app_length|]; lia. Qed.
Lemma mono_set_bit (w : world) l : mono w (set_bit w (w_bit w ++ l)).
Proof. split; cbn; [|rewrite app_length]; lia. Qed.

Lemma keepsQ_set_qubit {A} l (a : world -> A) : keeps JQ (fun w => (set_qubit w (w_qubit w ++ l), Ok (a w))).
Proof.
  split; [intros w; apply mono_set_qubit|]. intros w _. apply JQ_mono; [|reflexivity].
  cbn. rewrite app_length. lia.
Qed.
Lemma keepsB_set_qubit {A} l (a : world -> A) : keeps IB (fun w => (set_qubit w (w_qubit w ++ l), Ok (a w))).
Proof. split; [intros w; apply mono_set_qubit|]. intros w _ [H1 H2]. split; [exact H1|exact H2]. Qed.
Lemma keepsQ_set_bit {A} l (a : world -> A) : keeps JQ (fun w => (set_bit w (w_bit w ++ l), Ok (a w))).
Proof. split; [intros w; apply mono_set_bit|]. intros w _ H. exact H. Qed.
Lemma keepsB_set_bit {A} l (a : world -> A) : keeps IB (fun w => (set_bit w (w_bit w ++ l), Ok (a w))).
Proof.
  split; [intros w; apply mono_set_bit|]. intros w _ [H1 H2]. split; [|now apply clear_more].
  revert H1. apply JB_mono; [|reflexivity]. cbn. rewrite app_length. lia.
Qed.

Lemma keepsQ_new_qubits n a : keeps JQ (@new_qubits P a n).
Proof.
  split; intros w; rewrite new_qubits_run; cbn; [apply mono_set_qubit|]. intros _.
  apply JQ_mono; [|reflexivity]. cbn. rewrite app_length. lia.
Qed.
Lemma keepsB_new_bits n a : keeps IB (@new_bits P a n).
Proof.
  split; intros w; rewrite new_bits_run; cbn; [apply mono_set_bit|]. intros _ [H1 H2].
  split; [|now apply clear_more]. revert H1. apply JB_mono; [|reflexivity]. cbn. rewrite app_length. lia.
Qed.
End Inv.

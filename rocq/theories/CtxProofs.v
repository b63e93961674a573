(** The statements about contexts, locks, variables, bits and operations, for reachable states. *)
From Coq Require Import List ZArith String Bool Arith Lia.
From Verif Require Import Py RegisterModel WorldModel WorldSpec WorldSpec2 WorldInv WorldInv2 WorldInv5 WorldInv6 WorldInv7 WorldWf WorldWf2 WorldWf3 WorldCtx WorldCtx2 WorldCtx3 WorldOps.
Import ListNotations.
Local Open Scope nat_scope.

Section CtxProofs.
Variable P : Type.
Variable ptrue : P -> bool.
Variable peqb : P -> P -> bool.
Notation world := (world P).
Notation M := (M P).
Notation WF := (WF P).
Notation run := (run ptrue peqb).
Notation anything := (fun (_ : world) (_ : call P) => True).
Notation reached := (reaches P ptrue peqb anything).

(** ** C16 *)
Lemma leave_context (v w1 : world) c body : reached v -> (let! a := context c in ctx_enter a) v = (w1, Ok tt) ->
  let w2 := fst (run body w1) in
  let w3 := fst (run (With c body) v) in
  snd (run (With c body) v) = snd (run body w1) /\ w_active w3 = None /\
  (exists y z, nth_error (w_circ w2) c = Some y /\ nth_error (w_circ w3) c = Some z /\ c_locked z = true /\ c_ops z = c_ops y /\
     c_q z = c_q y /\ c_b z = c_b y) /\
  others_same c w2 w3 /\ w_op w3 = w_op w2 /\ w_qubit w3 = w_qubit w2 /\ w_bit w3 = w_bit w2.
Proof.
  intros R H. destruct (with_run P ptrue peqb v w1 c body (WF_reach P ptrue peqb _ v R) H) as (l & x & Ex & Hr). cbv zeta in Hr |- *.
  destruct Hr as (-> & _). cbn. split; [reflexivity|]. split; [reflexivity|]. split.
  - exists x, (left_circ x). split; [exact Ex|]. split; [eapply set_nth_same; eauto|]. unfold left_circ. destruct (c_par x); auto.
  - split; [|auto]. intros d Hd. cbn. now rewrite set_nth_other by auto.
Qed.
Lemma enter_busy (v : world) c x body a : reached v -> w_active v = Some a -> nth_error (w_circ v) c = Some x ->
  let w' := fst (run (With c body) v) in
  snd (run (With c body) v) = Err (if c_locked x then CircuitError else RuntimeError) /\
  w_active w' = Some a /\ w_op w' = w_op v /\ w_qubit w' = w_qubit v /\ w_bit w' = w_bit v /\ w_var w' = w_var v /\ w_exit w' = w_exit v /\
  others_same c v w' /\ exists f, nth_error (w_circ w') c = Some (with_ctx x f).
Proof.
  intros R Ha E. pose proof (WF_reach P ptrue peqb _ v R) as W. rewrite (busy_with P ptrue peqb v c body a W Ha). cbv zeta.
  unfold enter, mbind. destruct (context_run P v c x W E) as (b & f & H1 & H2 & H3 & H4).
  destruct (context c v) as [w1 r]; cbn [fst snd] in *. subst r.
  assert (Ha1 : w_active w1 = Some a) by (destruct H4 as [[_ ->]|[_ ->]]; exact Ha).
  assert (K : ctx_enter b w1 = (w1, Err (if c_locked x then CircuitError else RuntimeError))).
  { unfold ctx_enter, mbind at 1, get_ctx. rewrite H1. cbn [the ret raise fst].
    rewrite (bind_ok _ _ _ _ _ _ (get_circ_some P c w1 _ H3)). cbn [c_locked with_ctx]. destruct (c_locked x); [reflexivity|].
    unfold mbind, read. now rewrite Ha1. }
  rewrite K. cbn [fst snd]. split; [reflexivity|]. split; [exact Ha1|].
  destruct H4 as [[Hc ->]|[Hc ->]]; cbn; repeat (split; [reflexivity|]).
  - split; [intros d _; reflexivity|]. eexists. exact H3.
  - split; [intros d Hd; cbn; now rewrite set_nth_other by auto|]. exists (Some b). eapply set_nth_same; eauto.
Qed.
Lemma inside_context (v w1 w2 : world) c body : reached v -> (let! a := context c in ctx_enter a) v = (w1, Ok tt) ->
  visits P ptrue peqb body w1 w2 -> exists a f, w_active w2 = Some a /\ nth_error (w_ctx w2) a = Some (c, f).
Proof.
  intros R H Hv. pose proof (WF_reach P ptrue peqb _ v R) as W. unfold mbind in H.
  pose proof (WF_context P c v W) as Wc. destruct (nth_error (w_circ v) c) as [x|] eqn:E.
  2: { unfold context in H. rewrite (bind_err _ _ _ _ _ _ (get_circ_none P c v E)) in H. discriminate. }
  destruct (context_run P v c x W E) as (a & f & H1 & H2 & H3 & H4). destruct (context c v) as [w0 r]. cbn in *. subst r.
  destruct (enter_ok P w0 w1 a H) as (A1 & A2 & A3 & _).
  assert (W1 : WF w1). { pose proof (WF_enter P a w0 Wc) as W'. now rewrite H in W'. }
  assert (K : kept P w1 w2 /\ WF w2).
  { eapply (visits_inv P ptrue peqb (fun u => kept P w1 u /\ WF u) (fun _ _ => True)); [..|exact Hv].
    - intros u y _ [K1 K2]. split; [now apply kept_call|now apply WF_call].
    - intros d u [K1 K2]. split; [now apply kept_context|now apply WF_context].
    - intros d u [K1 K2]. split; [now apply kept_enter|now apply WF_enter].
    - intros d u [K1 K2]. split; [now apply kept_exit|now apply WF_exit].
    - intros d e u [K1 K2]. split; [now apply kept_frozen|now apply WF_frozen].
    - apply executes_true.
    - split; [apply kept_refl|exact W1]. }
  exists a. rewrite <- A3 in H1. destruct (g_ctx _ _ _ (proj1 K) a _ H1) as [g Hg]. exists g. split; [|exact Hg].
  eapply active_visits; eauto.
Qed.

(** ** C15 *)
Lemma locked_append (w : world) c x o os : nth_error (w_circ w) c = Some x -> c_locked x = true ->
  append_op ptrue c o w = (w, Err CircuitError) /\ extend_ops ptrue c (o :: os) w = (w, Err CircuitError).
Proof. intros E L. split; [eapply append_locked; eauto|eapply extend_locked; eauto]. Qed.
Lemma locked_enter_raises (v : world) c x body : reached v -> nth_error (w_circ v) c = Some x -> c_locked x = true ->
  let w' := fst (run (With c body) v) in
  snd (run (With c body) v) = Err CircuitError /\ w_op w' = w_op v /\ w_active w' = w_active v /\ others_same c v w' /\
  exists f, nth_error (w_circ w') c = Some (with_ctx x f).
Proof.
  intros R E L. pose proof (WF_reach P ptrue peqb _ v R) as W. rewrite (with_locked_circ P ptrue peqb c body v x W E L). cbv zeta. cbn [fst snd].
  split; [reflexivity|]. destruct (context_run P v c x W E) as (b & f & H1 & H2 & H3 & H4).
  destruct H4 as [[Hc H4]|[Hc H4]]; rewrite H4 in *; cbn; repeat (split; [reflexivity|]).
  - split; [intros d _; reflexivity|]. eexists. exact H3.
  - split; [intros d Hd; cbn; now rewrite set_nth_other by auto|]. eexists. exact H3.
Qed.
Lemma locked_build (w : world) a c x y : w_active w = Some a -> nth_error (w_ctx w) a = Some (c, false) ->
  nth_error (w_circ w) c = Some x -> c_locked x = true -> builds P w y ->
  (exists e, snd (do_call ptrue peqb y w) = Err e /\
     (snd (do_call ptrue peqb y (set_ctx w (set_nth a (c, true) (w_ctx w)))) = Ok tt -> e = CircuitError)) /\
  exists x', nth_error (w_circ (fst (do_call ptrue peqb y w))) c = Some x' /\ c_locked x' = true /\ c_ops x' = c_ops x.
Proof.
  intros A1 A2 E L B. split.
  - apply (locked_stuck P ptrue peqb a c y w); [|exact B]. split; [exact A1|]. split; [exact A2|]. eauto.
  - apply (locked_call P ptrue peqb c (c_ops x) y w); [|exists x; auto]. destruct y; simpl in B |- *; auto; contradiction.
Qed.
Lemma locked_stays (w v : world) c x p : nth_error (w_circ w) c = Some x -> c_locked x = true ->
  executes P ptrue peqb (fun _ => spares P c) p w -> visits P ptrue peqb p w v ->
  exists x', nth_error (w_circ v) c = Some x' /\ c_locked x' = true /\ c_ops x' = c_ops x.
Proof. intros E L He Hv. eapply (locked_visits P ptrue peqb c (c_ops x)); eauto. exists x. auto. Qed.

(** ** C20 *)
Lemma variables_unset (v : world) u s x : reaches P ptrue peqb (enough P) v -> w_active v = None -> nth_error (w_var v) u = Some (s, x) -> x = None.
Proof.
  intros R Ha E. destruct x as [p|]; [|reflexivity]. destruct (VI_reach P ptrue peqb v R u s p E) as [H _]. contradiction.
Qed.
Lemma exit_unsets (v w1 : world) c body t x u : reached v -> (let! a := context c in ctx_enter a) v = (w1, Ok tt) ->
  In t (w_exit (fst (run body w1))) -> nth_error (w_circ (fst (run body w1))) t = Some x -> In u (c_vars x) ->
  exists s, nth_error (w_var (fst (run (With c body) v))) u = Some (s, None).
Proof. intros R. apply with_unsets. eapply WF_reach; eauto. Qed.

(** ** C25 *)
Lemma remove_reached (v : world) c x op : reached v -> nth_error (w_circ v) c = Some x -> op < List.length (w_op v) ->
  (parametrised P v op \/ forall el, In el (c_ops x) -> ~ parametrised P v el) ->
  (exists l1 el l2, c_ops x = l1 ++ el :: l2 /\ matches P ptrue peqb v op el /\ Forall (fun u => ~ matches P ptrue peqb v op u) l1 /\
     remove_op ptrue peqb c op v = (set_circ v (set_nth c (with_ops x (l1 ++ l2)) (w_circ v)), Ok tt)) \/
  (Forall (fun u => ~ matches P ptrue peqb v op u) (c_ops x) /\ remove_op ptrue peqb c op v = (v, Err ValueError)).
Proof.
  intros R E L G. destruct (remove_run P ptrue peqb v c x op (WF_reach P ptrue peqb _ v R) E L) as
    [(l1 & e' & l2 & H1 & H2 & H3 & H4 & H5)|[(H1 & H2)|(l1 & e' & l2 & H1 & H2 & H3 & H4)]].
  - left. exists l1, e', l2. split; [exact H1|]. split; [exact H2|]. split; [|exact H5]. eapply Forall_impl; [|exact H4]. now intros u [_ ?].
  - right. split; [|exact H2]. eapply Forall_impl; [|exact H1]. now intros u [_ ?].
  - exfalso. apply H2. right. intros Hp. destruct G as [G|G]; [exact G|]. exfalso. apply (G e'); [|exact Hp]. rewrite H1. apply in_or_app. simpl. auto.
Qed.
Lemma remove_any (v : world) c x op : reached v -> nth_error (w_circ v) c = Some x -> op < List.length (w_op v) ->
  (exists l1 el l2, c_ops x = l1 ++ el :: l2 /\ matches P ptrue peqb v op el /\ Forall (fun u => ~ matches P ptrue peqb v op u) l1 /\
     remove_op ptrue peqb c op v = (set_circ v (set_nth c (with_ops x (l1 ++ l2)) (w_circ v)), Ok tt)) \/
  (Forall (fun u => ~ matches P ptrue peqb v op u) (c_ops x) /\ remove_op ptrue peqb c op v = (v, Err ValueError)) \/
  (exists l1 el l2, c_ops x = l1 ++ el :: l2 /\ el <> op /\ parametrised P v el /\ ~ parametrised P v op /\
     Forall (fun u => ~ matches P ptrue peqb v op u) l1 /\ remove_op ptrue peqb c op v = (v, Err AttributeError)).
Proof.
  intros R E L. destruct (remove_run P ptrue peqb v c x op (WF_reach P ptrue peqb _ v R) E L) as
    [(l1 & e' & l2 & H1 & H2 & H3 & H4 & H5)|[(H1 & H2)|(l1 & e' & l2 & H1 & H2 & H3 & H4)]].
  - left. exists l1, e', l2. split; [exact H1|]. split; [exact H2|]. split; [|exact H5]. eapply Forall_impl; [|exact H4]. now intros u [_ ?].
  - right. left. split; [|exact H2]. eapply Forall_impl; [|exact H1]. now intros u [_ ?].
  - right. right. exists l1, e', l2. split; [exact H1|]. unfold comparable in H2.
    destruct (parametrised_dec P v e') as [Pe|Pe]; [|exfalso; apply H2; right; tauto].
    split; [intros ->; apply H2; now left|]. split; [exact Pe|]. split; [intros Po; apply H2; now right|]. split; [|exact H4].
    eapply Forall_impl; [|exact H3]. now intros u [_ ?].
Qed.

(** ** C57 *)
Lemma arity_history ks p (v : world) k x n ps a m : visits P ptrue peqb p (start P ks) v ->
  nth_error ks k = Some x -> k_numq x = Some n -> (k_kind x = KCtrl \/ k_kind x = KParCtrl -> n <> 0) ->
  fits_signature P x ps a -> gives a m -> m <> n ->
  exists y, construct ptrue k ps a v = (set_op v (w_op v ++ [y]), Err ValueError).
Proof.
  intros Hv E N Hn Hf Hg Hm.
  assert (K : kept P (start P ks) v).
  { eapply (visits_inv P ptrue peqb (kept P (start P ks)) (fun _ _ => True)); [..|exact Hv].
    - intros u y _. apply kept_call.
    - apply kept_context.
    - apply kept_enter.
    - apply kept_exit.
    - apply kept_frozen.
    - apply executes_true.
    - apply kept_refl. }
  destruct (g_cls _ _ _ K k x E) as (x' & E' & H1 & H2 & H3 & H4 & H5 & H6).
  eapply (construct_wrong P ptrue v k x' ps a n m); eauto.
  - eapply insists_kept; [exact K|]. exists x. auto.
  - unfold fits_signature in *. rewrite H2, H5. exact Hf.
Qed.
Lemma arity_settled (w v : world) p k x n ps a m : nth_error (w_cls w) k = Some x -> k_numq x = Some (S n) ->
  visits P ptrue peqb p w v -> fits_signature P x ps a -> gives a m -> m <> S n ->
  exists y, construct ptrue k ps a v = (set_op v (w_op v ++ [y]), Err ValueError).
Proof.
  intros E N Hv Hf Hg Hm.
  assert (K : kept P w v).
  { eapply (visits_inv P ptrue peqb (kept P w) (fun _ _ => True)); [..|exact Hv].
    - intros u y _. apply kept_call.
    - apply kept_context.
    - apply kept_enter.
    - apply kept_exit.
    - apply kept_frozen.
    - apply executes_true.
    - apply kept_refl. }
  destruct (g_cls _ _ _ K k x E) as (x' & E' & H1 & H2 & H3 & H4 & H5 & H6).
  eapply (construct_wrong P ptrue v k x' ps a (S n) m); eauto.
  - eapply insists_kept; [exact K|]. exists x. split; [exact E|]. split; [exact N|]. discriminate.
  - unfold fits_signature in *. rewrite H2, H5. exact Hf.
Qed.
(** Reading [num_qubits] of a controlled class makes it insist. *)
Lemma settles (w : world) k x a b : nth_error (w_cls w) k = Some x -> k_kind x = KCtrl \/ k_kind x = KParCtrl ->
  k_numq x = None -> k_ncontrol x = Some (S a) -> k_ntarget x = Some (S b) ->
  snd (cls_num_qubits k w) = Ok (S a + S b) /\ insists P (fst (cls_num_qubits k w)) k (S a + S b).
Proof.
  intros E K N A B.
  set (x' := mkCls (k_name x) (k_kind x) (Some (S a + S b)) (Some (S a)) (Some (S b)) (k_nparams x)).
  assert (S0 : settle k w = (set_cls w (set_nth k x' (w_cls w)), Ok tt)).
  { unfold settle. assert (G : get_cls k w = (w, Ok x)) by (unfold get_cls; now rewrite E). rewrite (bind_ok _ _ _ _ _ _ G).
    unfold x'. rewrite N, A, B. destruct K as [K|K]; rewrite K; reflexivity. }
  assert (S1 : nth_error (set_nth k x' (w_cls w)) k = Some x') by (eapply set_nth_same; eauto).
  assert (S2 : get_cls k (set_cls w (set_nth k x' (w_cls w))) = (set_cls w (set_nth k x' (w_cls w)), Ok x')) by (unfold get_cls; cbn [w_cls set_cls]; now rewrite S1).
  unfold cls_num_qubits. rewrite (bind_ok _ _ _ _ _ _ S0), (bind_ok _ _ _ _ _ _ S2). cbn. split; [reflexivity|].
  exists x'. split; [exact S1|]. split; [reflexivity|]. discriminate.
Qed.

(** ** C59 *)
Lemma store_none (w : world) o x k bs : nth_error (w_op w) o = Some x -> nth_error (w_cls w) (o_cls x) = Some k -> k_kind k = KMeas ->
  o_numq x = None -> store o bs w = (w, Err TypeError).
Proof.
  intros E Ek K N. unfold store.
  assert (E1 : get_op o w = (w, Ok x)) by (unfold get_op; now rewrite E).
  assert (E3 : get_cls (o_cls x) w = (w, Ok k)) by (unfold get_cls; now rewrite Ek).
  now rewrite (bind_ok _ _ _ _ _ _ E1), (bind_ok _ _ _ _ _ _ E3), K, N.
Qed.
Lemma store_spec (w : world) o x k n bs : nth_error (w_op w) o = Some x -> nth_error (w_cls w) (o_cls x) = Some k -> k_kind k = KMeas ->
  o_numq x = Some n ->
  (n <= List.length bs -> exists y l r, store o bs w = (set_op w (set_nth o y (w_op w)), Ok tt) /\ bs = l ++ r /\ List.length l = n /\
     y = mkOp (o_cls x) (o_qubits x) (o_numq x) (o_params x) (o_control x) (o_target x) (Some l) (o_cond x)) /\
  (List.length bs < n -> store o bs w = (w, Err ValueError)).
Proof.
  intros E Ek K N. rewrite (store_run P w o x k n bs E Ek K N). split; intros H.
  - apply Nat.ltb_ge in H. rewrite H. apply Nat.ltb_ge in H. eexists _, (firstn n bs), (skipn n bs). split; [reflexivity|].
    split; [symmetry; apply firstn_skipn|]. split; [now rewrite firstn_length_le|]. reflexivity.
  - apply Nat.ltb_lt in H. now rewrite H.
Qed.

(** ** C11 *)
Lemma set_bit_spec (w : world) b l old v f : nth_error (w_bit w) b = Some (l, old) ->
  (old = None \/ f = true -> snd (bit_set b v f w) = Ok tt /\ bit_value P (fst (bit_set b v f w)) b = Some v) /\
  (old <> None -> f = false -> bit_set b v f w = (w, Err ValueError)).
Proof.
  intros E. rewrite (bit_set_run P w b l old v f E). split.
  - intros [->| ->]; [|destruct old]; cbn [fst snd]; (split; [reflexivity|]); unfold bit_value; cbn; now rewrite (set_nth_same _ _ _ _ E).
  - intros H ->. destruct old; [reflexivity|congruence].
Qed.
Lemma reset_bit_spec (w : world) b l old : nth_error (w_bit w) b = Some (l, old) ->
  snd (bit_reset b w) = Ok tt /\ bit_value P (fst (bit_reset b w)) b = None.
Proof. intros E. unfold bit_reset. rewrite E. cbn. split; [reflexivity|]. unfold bit_value. cbn. now rewrite (set_nth_same _ _ _ _ E). Qed.
End CtxProofs.

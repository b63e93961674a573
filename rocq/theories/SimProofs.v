(** Gate application in the simulator equals the specified action. *)
From Coq Require Import List NArith Arith Bool Lia Ring.
From Verif Require Import Py CRing KernelModel KernelSpec KernelBits KernelProofs KernelProofs2 SimModel SimSpec.
Import ListNotations.
Local Open Scope N_scope.

Section S.
Variable K : cring.
Add Ring KringS : (r_theory K).
Notation kind := (kind K).

(** ** Exchanging and flipping *)
Lemma qset_testbit le n i q b j :
  N.testbit (qset le n i q b) j = if j =? bitpos le n q then b else N.testbit i j.
Proof.
  unfold qset. destruct b.
  - rewrite N.setbit_eqb, (N.eqb_sym _ j). now destruct (j =? bitpos le n q).
  - rewrite N.clearbit_eqb, (N.eqb_sym _ j). destruct (j =? bitpos le n q); now rewrite ?andb_false_r, ?andb_true_r.
Qed.

Lemma exchange_sym le n i a b : a < n -> b < n -> a <> b -> exchange le n i a b = exchange le n i b a.
Proof.
  intros Ha Hb Hne. apply N.bits_inj. intros j. unfold exchange. rewrite !qset_testbit.
  destruct (N.eqb_spec j (bitpos le n b)) as [E1|], (N.eqb_spec j (bitpos le n a)) as [E2|]; try reflexivity.
  rewrite E1 in E2. apply bitpos_inj in E2; auto. congruence.
Qed.

Definition swapM : N -> N -> K := fun i j => entry_val (swap_gate (K := K) i j).

Lemma op_apply_swap le n t0 t1 cs (v : N -> K) i : t0 <> t1 ->
  op_apply le n swapM [t0; t1] cs v i
  = if forallb (qbit le n i) cs then v (exchange le n i t1 t0) else v i.
Proof.
  intros Hne. unfold op_apply. destruct (forallb (qbit le n i) cs); [|reflexivity].
  cbn [length]. change (2 ^ N.of_nat 2) with 4. change (Nrange 4) with [0; 1; 2; 3].
  unfold exchange. cbn [read write sumf fold_right].
  change (N.div2 0) with 0. change (N.div2 1) with 0. change (N.div2 2) with 1. change (N.div2 3) with 1.
  change (N.odd 0) with false. change (N.odd 1) with true. change (N.odd 2) with false. change (N.odd 3) with true.
  destruct (qbit le n i t0), (qbit le n i t1); unfold swapM; cbn [N.b2n N.add N.mul swap_gate entry_val];
    simpl; ring.
Qed.

Lemma op_apply_x le n t cs (v : N -> K) i :
  op_apply le n (x_matrix K) [t] cs v i
  = if forallb (qbit le n i) cs then v (flip le n i t) else v i.
Proof.
  unfold op_apply. destruct (forallb (qbit le n i) cs); [|reflexivity].
  cbn [length]. change (2 ^ N.of_nat 1) with 2. change (Nrange 2) with [0; 1].
  unfold flip. cbn [read write sumf fold_right].
  change (N.odd 0) with false. change (N.odd 1) with true.
  destruct (qbit le n i t); simpl; ring.
Qed.

(** ** Gates as operators *)
Definition conj_kind (c : bool) (k : kind) : kind :=
  match k with
  | KControlled _ nc dim m => KControlled K nc dim (conj_gate K c m)
  | KOther _ nq m => KOther K nq (conj_gate K c m)
  | _ => k
  end.

Definition kop (k : kind) (ts : list N) : option ((N -> N -> K) * list N * list N) :=
  match k, ts with
  | KSwap _, [a; b] => Some (swapM, [b; a], [])
  | KCSwap _, [c; a; b] => Some (swapM, [a; b], [c])
  | KCCX _, [c; d; t] => Some (x_matrix K, [t], [c; d])
  | KControlled _ 1 _ m, [c; t] => Some (m, [t], [c])
  | KControlled _ 2 _ m, [c; d; t] => Some (m, [t], [c; d])
  | KOther _ 1 m, [t] => Some (m, [t], [])
  | _, _ => None
  end.

Definition good_targets (n : N) (ts : list N) : Prop := NoDup ts /\ forall t, In t ts -> t < n.

Lemma kop_some k ts : is_measure k = false -> supported k ->
  (forall a, arity k = Some a -> length ts = a) -> exists x, kop k ts = Some x.
Proof.
  intros Hm Hs Ha. destruct k as [mid bits| | | |nc dim m|nq m]; simpl in *; try discriminate.
  - specialize (Ha _ eq_refl). destruct ts as [|a [|b [|? ?]]]; try discriminate. eauto.
  - specialize (Ha _ eq_refl). destruct ts as [|a [|b [|c [|? ?]]]]; try discriminate. eauto.
  - specialize (Ha _ eq_refl). destruct ts as [|a [|b [|c [|? ?]]]]; try discriminate. eauto.
  - specialize (Ha _ eq_refl). destruct Hs as [[->| ->] _].
    + destruct ts as [|a [|b [|? ?]]]; try discriminate. eauto.
    + destruct ts as [|a [|b [|c [|? ?]]]]; try discriminate. eauto.
  - subst. specialize (Ha _ eq_refl). destruct ts as [|a [|? ?]]; try discriminate. eauto.
Qed.

Lemma kop_targets k ts G T Cs : kop k ts = Some (G, T, Cs) -> NoDup ts ->
  NoDup (T ++ Cs) /\ (forall q, In q (T ++ Cs) -> In q ts).
Proof.
  intros H Hn.
  assert (HP : forall l, Permutation.Permutation ts l -> NoDup l /\ (forall q, In q l -> In q ts)).
  { intros l Hp. split; [eapply Permutation.Permutation_NoDup; eauto|].
    intros q Hq. eapply Permutation.Permutation_in; [apply Permutation.Permutation_sym; eauto|auto]. }
  destruct k as [mid bits| | | |nc dim m|nq m]; simpl in H;
    repeat match type of H with
           | match ?x with _ => _ end = _ => destruct x; try discriminate
           end; inversion H; subst; apply HP; simpl.
  - apply Permutation.perm_swap.
  - eapply Permutation.perm_trans; [apply Permutation.perm_swap|]. constructor. apply Permutation.perm_swap.
  - eapply Permutation.perm_trans; [constructor; apply Permutation.perm_swap|]. apply Permutation.perm_swap.
  - apply Permutation.perm_swap.
  - eapply Permutation.perm_trans; [constructor; apply Permutation.perm_swap|]. apply Permutation.perm_swap.
  - apply Permutation.Permutation_refl.
Qed.

Lemma kop_action le n k ts G T Cs (v : N -> K) i : kop k ts = Some (G, T, Cs) -> good_targets n ts ->
  gate_action le n k ts v i = op_apply le n G T Cs v i.
Proof.
  intros H [Hn Hlt].
  destruct k as [mid bits| | | |nc dim m|nq m]; simpl in H;
    repeat match type of H with
           | match ?x with _ => _ end = _ => destruct x; try discriminate
           end; inversion H; subst; cbn [gate_action]; try reflexivity.
  - rewrite op_apply_swap; [reflexivity|]. inversion Hn; subst. simpl in *. intuition.
  - rewrite op_apply_swap.
    + cbn [forallb]. rewrite andb_true_r. rewrite exchange_sym; [reflexivity| | |].
      * apply Hlt. simpl; auto.
      * apply Hlt. simpl; auto.
      * inversion Hn as [|? ? _ Hn']; subst. inversion Hn'; subst. simpl in *. intuition.
    + inversion Hn as [|? ? _ Hn']; subst. inversion Hn'; subst. simpl in *. intuition.
  - rewrite op_apply_x. cbn [forallb]. now rewrite andb_true_r.
Qed.

(** ** The code *)
Variable U : Type.
Variable gtb : K -> U -> bool.
Variable is0 : K -> bool.
Variable invsqrt : K -> K.
Variable rnd : nat -> U.
Notation apply_instruction := (apply_instruction K U gtb is0 invsqrt rnd).
Notation run_pure := (run_pure K U gtb is0 invsqrt rnd).
Notation run_mixed := (run_mixed K U gtb is0 invsqrt rnd).
Notation simulate := (simulate K U gtb is0 invsqrt rnd).
Notation mem := (mem K).

Definition gate_of_kind (k : kind) : N -> N -> entry K :=
  match k with
  | KSwap _ | KCSwap _ => swap_gate
  | KCCX _ => runtime_gate (x_matrix K)
  | KControlled _ _ _ m | KOther _ _ m => runtime_gate m
  | KMeasure _ _ _ => swap_gate
  end.

Lemma kop_gate k ts G T Cs : kop k ts = Some (G, T, Cs) ->
  forall i j, G i j = entry_val (gate_of_kind k i j).
Proof.
  intros H i j.
  destruct k as [mid bits| | | |nc dim m|nq m]; simpl in H;
    repeat match type of H with
           | match ?x with _ => _ end = _ => destruct x; try discriminate
           end; inversion H; subst; reflexivity.
Qed.

Lemma apply_kernel n le conj o ts (m : mem) v G T Cs :
  is_blocked K m o = false -> supported (so_kind K o) ->
  kop (conj_kind conj (so_kind K o)) ts = Some (G, T, Cs) ->
  apply_instruction n le conj o ts m v
  = (m, get (kernel (mkParams le n T Cs) (gate_of_kind (conj_kind conj (so_kind K o))) None v)).
Proof.
  intros Hb Hs Hk. unfold SimModel.apply_instruction. rewrite Hb.
  destruct (so_kind K o) as [mid bits| | | |nc dim g|nq g]; simpl in Hk, Hs |- *;
    repeat match type of Hk with
           | match ?x with _ => _ end = _ => destruct x; try discriminate
           end; inversion Hk; subst; try reflexivity.
  - destruct Hs as [_ ->]. reflexivity.
  - destruct Hs as [_ ->]. reflexivity.
Qed.

Lemma conj_kind_supported c k : supported k -> supported (conj_kind c k).
Proof. destruct k; simpl; auto. Qed.
Lemma conj_kind_arity c k : arity (conj_kind c k) = arity k.
Proof. destruct k; reflexivity. Qed.
Lemma conj_kind_measure c k : is_measure (conj_kind c k) = is_measure k.
Proof. destruct k; reflexivity. Qed.

Lemma apply_gate n le conj o ts (m : mem) v :
  n <= 30 -> is_blocked K m o = false -> is_measure (so_kind K o) = false ->
  supported (so_kind K o) -> (forall a, arity (so_kind K o) = Some a -> length ts = a) ->
  good_targets n ts ->
  exists v', apply_instruction n le conj o ts m v = (m, Ok v') /\
    forall i, i < 2 ^ n -> v' i = gate_action le n (conj_kind conj (so_kind K o)) ts v i.
Proof.
  intros Hn Hb Hm Hs Ha Hg.
  destruct (kop_some (conj_kind conj (so_kind K o)) ts) as ([[G T] Cs] & Hk).
  { now rewrite conj_kind_measure. }
  { now apply conj_kind_supported. }
  { now rewrite conj_kind_arity. }
  rewrite (apply_kernel n le conj o ts m v G T Cs Hb Hs Hk).
  destruct Hg as [Hnd Hlt]. destruct (kop_targets _ _ _ _ _ Hk Hnd) as [Hnd' Hin].
  destruct (kernel_correct K (mkParams le n T Cs) (gate_of_kind (conj_kind conj (so_kind K o))) None v)
    as (v' & Hv & H1 & _); [exact Hn|intros q Hq; apply Hlt, Hin, Hq|exact Hnd'|].
  exists v'. rewrite Hv. split; [reflexivity|]. intros i Hi. rewrite H1 by exact Hi.
  rewrite (kop_action le n _ ts G T Cs v i Hk) by (split; assumption). cbn [p_le p_n p_targets p_controls].
  apply op_apply_ext; [intros q Hq; apply Hlt, Hin, in_or_app; auto|exact Hi| |auto].
  intros s t. symmetry. apply (kop_gate _ _ _ _ _ Hk).
Qed.

(** ** Qubits to positions *)
Lemma index_of_spec x l : In x l -> exists i, index_of x l = Some i /\ (i < length l)%nat /\ nth_error l i = Some x.
Proof.
  induction l as [|y l IH]; intros H; [destruct H|]. simpl. destruct (Nat.eqb_spec x y) as [->|Hne].
  - exists 0%nat. repeat split; simpl; auto. lia.
  - destruct H as [->|H]; [congruence|]. destruct (IH H) as (i & E & Hl & Hn). rewrite E. simpl.
    exists (S i). repeat split; simpl; auto. lia.
Qed.

Lemma target_indices_wf c o : wf_op c o ->
  exists ts, target_indices K c o = Ok ts /\ (forall t, In t ts -> t < num_qubits K c) /\
    (is_measure (so_kind K o) = false -> NoDup ts) /\
    (forall a, arity (so_kind K o) = Some a -> length ts = a) /\
    (forall qs, so_qubits K o = Some qs -> length ts = length qs).
Proof.
  intros (qs & Hq & Hin & Hnd & Ha & Hs). unfold target_indices. rewrite Hq.
  set (f := fun q => match index_of q (sc_qubits K c) with Some i => Ok (N.of_nat i) | None => Err ValueError end).
  assert (H : forall l, incl l (sc_qubits K c) -> exists ts, mapM f l = Ok ts /\
             Forall2 (fun q t => exists i, t = N.of_nat i /\ nth_error (sc_qubits K c) i = Some q) l ts).
  { induction l as [|q l IH]; intros Hl; simpl; [exists []; auto|].
    destruct (index_of_spec q (sc_qubits K c)) as (i & E & Hi & Hn); [apply Hl; now left|].
    unfold f at 1. rewrite E. simpl. destruct IH as (ts & -> & F); [intros x Hx; apply Hl; now right|].
    simpl. exists (N.of_nat i :: ts). split; [reflexivity|]. constructor; [eauto|auto]. }
  destruct (H qs Hin) as (ts & E & F). exists ts. split; [exact E|].
  assert (Hlen : length ts = length qs) by (clear - F; induction F; simpl; congruence).
  split.
  - clear - F. intros t Ht. induction F as [|q t' qs ts (i & -> & Hi) F IH]; [destruct Ht|].
    destruct Ht as [<-|Ht]; [|auto]. unfold num_qubits. assert (i < length (sc_qubits K c))%nat by (apply nth_error_Some; congruence). lia.
  - split.
    + intros Hm. specialize (Hnd Hm). clear - F Hnd. induction F as [|q t qs ts (i & -> & Hi) F IH]; constructor.
      * inversion Hnd as [|? ? Hq _]; subst. intros Hin. apply Hq. clear - F Hin Hi.
        induction F as [|q' t' qs ts (j & -> & Hj) F IH]; [destruct Hin|].
        destruct Hin as [E|Hin]; [left|right; auto]. apply Nat2N.inj in E. subst. congruence.
      * apply IH. now inversion Hnd.
    + split; [|intros qs' E'; congruence]. intros a Ha'. rewrite Hlen. now apply Ha.
Qed.

Lemma is_blocked_spec (m : mem) o : is_blocked K m o = true <-> some_zero (m_bits K m) (so_cond K o).
Proof.
  unfold is_blocked, some_zero. rewrite negb_true_iff. split.
  - intros H. induction (so_cond K o) as [|b l IH]; [discriminate|]. simpl in H.
    unfold bit_true in H at 1. destruct (m_bits K m b) as [[|]|] eqn:E.
    + destruct (IH H) as (x & Hx & Ex). exists x. split; [now right|auto].
    + exists b. split; [now left|auto].
    + destruct (IH H) as (x & Hx & Ex). exists x. split; [now right|auto].
  - intros (b & Hb & E). destruct (forallb _ _) eqn:F; [|reflexivity].
    rewrite forallb_forall in F. specialize (F b Hb). unfold bit_true in F. rewrite E in F. discriminate.
Qed.
End S.

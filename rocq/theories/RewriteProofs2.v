(** The identities between library gates, and gates on different qubits. *)
From Coq Require Import List NArith Arith Bool Lia Reals Lra.
From Verif Require Import Py CRing Cplx KernelModel KernelSpec KernelBits KernelProofs KernelProofs2 SimModel SimSpec SimReal SimProofs SimProofs2 SimProofs3 
  UnitaryModel UnitarySpec CallSpec CallProofs CallProofs2 CallProofs3 GateModel GateProofs GateProofs2 RewriteSpec RewriteProofs.
Import ListNotations.
Local Open Scope N_scope.

(** ** From actions to matrices *)
Section Effect.
Variables c d : scirc Ccring.
Hypothesis Hcd : num_qubits Ccring d = num_qubits Ccring c.

Lemma uncond_ops e ops : fine e ops -> forall o, In o (map uncond ops) -> wf_op (part e ops) o /\ is_measure (so_kind Ccring o) = false /\ so_cond Ccring o = [].
Proof.
  intros H o Ho. apply in_map_iff in Ho. destruct Ho as (x & <- & Hx). destruct (H x Hx) as ((qs & W) & Hm).
  split; [exists qs; exact W|]. split; [exact Hm|reflexivity].
Qed.
Definition does (e : scirc Ccring) (ops : list (sop Ccring)) (v : N -> C) : N -> C := acted Ccring false (part e ops) (map uncond ops) v.

Lemma effect_intro A B z : fine c A -> fine d B -> Cnorm2 z = 1%R ->
  (forall v i, i < 2 ^ num_qubits Ccring c -> does d B v i = Cmul z (does c A v i)) -> same_effect c A d B.
Proof.
  intros HA HB Hz H. exists (fun r s => does c A (@basis Ccring s) r), (fun r s => does d B (@basis Ccring s) r), z.
  split; [intros s _; exact (acted_runs Ccring false (part c A) (fun _ => None) _ (uncond_ops c A HA) (@basis Ccring s))|].
  split; [intros s _; exact (acted_runs Ccring false (part d B) (fun _ => None) _ (uncond_ops d B HB) (@basis Ccring s))|].
  split; [exact Hz|]. intros r s Hr Hs. now apply H.
Qed.
End Effect.

(** ** Gates on different qubits *)
Lemma NoDup_left {A} (l k : list A) : NoDup (l ++ k) -> NoDup l.
Proof. induction l as [|a l IH]; intros H; [constructor|]. inversion H; subst. constructor; [intros Ha; apply H2, in_or_app; now left|auto]. Qed.
Section Disjoint.
Variable n : N.
Notation wr := (write false n).

Lemma other_bit l i s q : NoDup l -> (forall t, In t l -> t < n) -> q < n -> ~ In q l -> qbit false n (wr i l s) q = qbit false n i q.
Proof.
  intros Hn Hl Hq Hi. unfold qbit. rewrite (write_bit false n l i s) by auto.
  destruct (existsb _ l) eqn:E; [|reflexivity]. exfalso. apply existsb_exists in E. destruct E as (t & Ht & E). apply N.eqb_eq in E.
  apply bitpos_inj in E; auto. now subst.
Qed.
Lemma other_read l i s T : NoDup l -> (forall t, In t l -> t < n) -> (forall q, In q T -> q < n /\ ~ In q l) -> read false n (wr i l s) T = read false n i T.
Proof.
  intros Hn Hl. induction T as [|q T IH]; intros HT; [reflexivity|]. cbn [read]. rewrite IH by (intros; apply HT; now right).
  destruct (HT q (or_introl eq_refl)). now rewrite other_bit.
Qed.
Lemma other_forallb l i s T : NoDup l -> (forall t, In t l -> t < n) -> (forall q, In q T -> q < n /\ ~ In q l) -> forallb (qbit false n (wr i l s)) T = forallb (qbit false n i) T.
Proof.
  intros Hn Hl. induction T as [|q T IH]; intros HT; [reflexivity|]. cbn [forallb]. rewrite IH by (intros; apply HT; now right).
  destruct (HT q (or_introl eq_refl)). now rewrite other_bit.
Qed.
Lemma write_swap l k i s t : NoDup l -> (forall q, In q l -> q < n) -> NoDup k -> (forall q, In q k -> q < n /\ ~ In q l) -> wr (wr i l s) k t = wr (wr i k t) l s.
Proof.
  intros Hn Hl Hk Hkl. apply N.bits_inj. intros j. rewrite !(write_bit false n k), !(write_bit false n l); auto; try (intros; now apply Hkl).
  destruct (existsb _ k) eqn:E1, (existsb _ l) eqn:E2; try reflexivity; [|rewrite (write_bit false n k), E1; auto; intros; now apply Hkl|rewrite (write_bit false n k), E1; auto; intros; now apply Hkl].
  exfalso. apply existsb_exists in E1, E2. destruct E1 as (a & Ha & E1), E2 as (b & Hb & E2). apply N.eqb_eq in E1, E2.
  assert (a = b) by (apply (bitpos_inj false n); [now apply Hkl|now apply Hl|congruence]). subst. now apply (proj2 (Hkl b Ha)).
Qed.

Lemma op_apply_swap2 (G H : N -> N -> C) T Cs U Ds (v : N -> C) i : NoDup (T ++ Cs) -> NoDup (U ++ Ds) ->
  (forall q, In q (T ++ Cs) -> q < n) -> (forall q, In q (U ++ Ds) -> q < n /\ ~ In q (T ++ Cs)) ->
  @op_apply Ccring false n G T Cs (@op_apply Ccring false n H U Ds v) i = @op_apply Ccring false n H U Ds (@op_apply Ccring false n G T Cs v) i.
Proof.
  intros N1 N2 L1 L2.
  assert (NT : NoDup T) by (eapply NoDup_left; eassumption). assert (NU : NoDup U) by (eapply NoDup_left; eassumption).
  assert (LT : forall q, In q T -> q < n) by (intros; apply L1, in_or_app; now left).
  assert (LU : forall q, In q U -> q < n) by (intros; apply L2, in_or_app; now left).
  assert (UT : forall q, In q U -> q < n /\ ~ In q T) by (intros q Hq; split; [auto|]; intros Hq'; apply (proj2 (L2 q (in_or_app _ _ _ (or_introl Hq)))), in_or_app; now left).
  assert (DT : forall q, In q Ds -> q < n /\ ~ In q T) by (intros q Hq; split; [apply L2, in_or_app; now right|]; intros Hq'; apply (proj2 (L2 q (in_or_app _ _ _ (or_intror Hq)))), in_or_app; now left).
  assert (TU : forall q, In q T -> q < n /\ ~ In q U) by (intros q Hq; split; [auto|]; intros Hq'; now apply (proj2 (UT q Hq'))).
  assert (CU : forall q, In q Cs -> q < n /\ ~ In q U) by (intros q Hq; split; [apply L1, in_or_app; now right|]; intros Hq'; apply (proj2 (L2 q (in_or_app _ _ _ (or_introl Hq')))), in_or_app; now right).
  assert (EA : forall s, forallb (qbit false n (wr i T s)) Ds = forallb (qbit false n i) Ds) by (intros; now apply other_forallb).
  assert (EB : forall s, forallb (qbit false n (wr i U s)) Cs = forallb (qbit false n i) Cs) by (intros; now apply other_forallb).
  unfold op_apply. destruct (forallb (qbit false n i) Cs) eqn:E1, (forallb (qbit false n i) Ds) eqn:E2.
  - transitivity (@sumf Ccring N (Nrange (2 ^ N.of_nat (length T))) (fun s => @sumf Ccring N (Nrange (2 ^ N.of_nat (length U)))
      (fun u => Cmul (G (read false n i T) s) (Cmul (H (read false n i U) u) (v (wr (wr i T s) U u)))))).
    + apply sumf_ext. intros s _. rewrite EA, other_read by auto. symmetry. apply (sumf_scale Ccring).
    + rewrite sumf_swap. apply sumf_ext. intros u _. rewrite EB, other_read by auto.
      etransitivity; [|apply (sumf_scale Ccring)]. apply sumf_ext. intros s _. rewrite (write_swap T U) by auto. cbn. ceq; ring.
  - apply sumf_ext. intros s _. now rewrite EA.
  - symmetry. apply sumf_ext. intros s _. now rewrite EB.
  - reflexivity.
Qed.
End Disjoint.

Lemma gates_swap n k k' ts ts' (v : N -> C) i : i < 2 ^ n -> good_kind Ccring k ts -> good_kind Ccring k' ts' -> good_targets n ts -> good_targets n ts' ->
  (forall t, In t ts -> ~ In t ts') ->
  @gate_action Ccring false n k ts (@gate_action Ccring false n k' ts' v) i = @gate_action Ccring false n k' ts' (@gate_action Ccring false n k ts v) i.
Proof.
  intros Hi K1 K2 G1 G2 Hd. destruct (good_kop Ccring k ts K1) as (G & T & Cs & E1). destruct (good_kop Ccring k' ts' K2) as (H & U & Ds & E2).
  destruct (kop_targets Ccring _ _ _ _ _ E1 (proj1 G1)) as (N1 & I1). destruct (kop_targets Ccring _ _ _ _ _ E2 (proj1 G2)) as (N2 & I2).
  rewrite !(kop_action Ccring false n k ts G T Cs) by auto. rewrite (kop_action Ccring false n k' ts' H U Ds) by auto.
  rewrite (op_apply_vec false n G T Cs (@gate_action Ccring false n k' ts' v) (@op_apply Ccring false n H U Ds v)); [|intros; apply G1, I1, in_or_app; now left|exact Hi|intros j _; exact (kop_action Ccring false n k' ts' H U Ds v j E2 G2)].
  rewrite (op_apply_vec false n H U Ds (@gate_action Ccring false n k ts v) (@op_apply Ccring false n G T Cs v)); [|intros; apply G2, I2, in_or_app; now left|exact Hi|intros j _; exact (kop_action Ccring false n k ts G T Cs v j E1 G1)].
  apply op_apply_swap2; auto.
  - intros q Hq. now apply G1, I1.
  - intros q Hq. split; [now apply G2, I2|]. intros Hq'. apply (Hd q); [now apply I1|now apply I2].
Qed.

Theorem disjoint_effect c o p : NoDup (sc_qubits Ccring c) -> wf_op c o -> wf_op c p -> is_measure (so_kind Ccring o) = false -> is_measure (so_kind Ccring p) = false ->
  (forall qs qs' q, so_qubits Ccring o = Some qs -> so_qubits Ccring p = Some qs' -> In q qs -> ~ In q qs') -> same_effect c [o; p] c [p; o].
Proof.
  intros Hnd Wo Wp Mo Mp Hq.
  assert (F : forall x y, wf_op c x -> wf_op c y -> is_measure (so_kind Ccring x) = false -> is_measure (so_kind Ccring y) = false -> fine c [x; y]) by (intros x y ? ? ? ? a [<-|[<-|[]]]; auto).
  apply (effect_intro c c [o; p] [p; o] C1); [now apply F|now apply F|unfold Cnorm2, C1, Re, Im; cbn; ring|].
  intros v i Hi. transitivity (does c [o; p] v i); [|ceq; ring].
  assert (Wo' : wf_op (part c []) (uncond o)) by now apply wf_uncond. assert (Wp' : wf_op (part c []) (uncond p)) by now apply wf_uncond.
  unfold does. cbn [map acted].
  change (target_indices Ccring (part c [o; p])) with (target_indices Ccring (part c [])). change (target_indices Ccring (part c [p; o])) with (target_indices Ccring (part c [])).
  change (num_qubits Ccring (part c [o; p])) with (num_qubits Ccring c). change (num_qubits Ccring (part c [p; o])) with (num_qubits Ccring c).
  destruct (placed_wf Ccring _ _ Wo') as (ts & E1 & P1 & _). destruct (placed_wf Ccring _ _ Wp') as (ts' & E2 & P2 & _). rewrite E1, E2.
  destruct (placed_good Ccring _ _ ts Wo' Hnd P1 Mo) as (G1 & K1). destruct (placed_good Ccring _ _ ts' Wp' Hnd P2 Mp) as (G2 & K2).
  apply gates_swap; auto. intros t Ht Ht'. destruct P1 as (qs & Eq & F1), P2 as (qs' & Eq' & F2). cbn in Eq, Eq'.
  assert (X : forall l l', Forall2 (fun q t => nth_error (sc_qubits Ccring c) (N.to_nat t) = Some q) l l' -> forall t, In t l' -> exists q, In q l /\ nth_error (sc_qubits Ccring c) (N.to_nat t) = Some q).
  { clear. induction 1 as [|q t l l' H F IH]; intros x Hx; [destruct Hx|]. destruct Hx as [->|Hx]; [eauto using in_eq|]. destruct (IH x Hx) as (q' & ? & ?). eauto using in_cons. }
  destruct (X _ _ F1 t Ht) as (q & Hq1 & N1), (X _ _ F2 t Ht') as (q' & Hq2 & N2). assert (q' = q) by congruence. subst q'. exact (Hq qs qs' q Eq Eq' Hq1 Hq2).
Qed.

(** ** Sequences of library gates *)
Definition steps_ok (k : nat) (l : list (gate * list nat)) : Prop :=
  Forall (fun s => length (snd s) = N.to_nat (qubits_of (fst s)) /\ NoDup (snd s) /\ Forall (fun j => (j < k)%nat) (snd s)) l.

Lemma lib_kind g : is_measure (gate_kind g) = false /\ supported (gate_kind g) /\ arity (gate_kind g) = Some (N.to_nat (qubits_of g)).
Proof. destruct g; cbn; auto. Qed.

Lemma pick_at (Q qs : list nat) ts : Forall2 (fun q t => nth_error Q (N.to_nat t) = Some q) qs ts -> forall j, (j < length qs)%nat -> nth_error Q (N.to_nat (nth j ts 0)) = Some (nth j qs 0%nat).
Proof. induction 1 as [|q t l l' H F IH]; intros j Hj; cbn [length] in Hj; [lia|]. destruct j as [|j]; [exact H|]. cbn [nth]. apply IH. lia. Qed.

Section Steps.
Variable c : scirc Ccring.
Hypothesis Hnd : NoDup (sc_qubits Ccring c).
Variables qs cond : list nat.
Variable ts : list N.
Hypothesis Hqs : NoDup qs.
Hypothesis Hts : Forall2 (fun q t => nth_error (sc_qubits Ccring c) (N.to_nat t) = Some q) qs ts.

Lemma pick_place j : (j < length qs)%nat -> nth_error (sc_qubits Ccring c) (N.to_nat (nth j ts 0)) = Some (nth j qs 0%nat).
Proof. exact (pick_at (sc_qubits Ccring c) qs ts Hts j). Qed.
Lemma step_ok s : length (snd s) = N.to_nat (qubits_of (fst s)) /\ NoDup (snd s) /\ Forall (fun j => (j < length qs)%nat) (snd s) ->
  wf_op c (on qs cond s) /\ placed c (uncond (on qs cond s)) (map (fun k => nth k ts 0) (snd s)).
Proof.
  destruct s as [g js]. cbn [fst snd]. intros (Hl & Hn & Hj). destruct (lib_kind g) as (K1 & K2 & K3). rewrite Forall_forall in Hj. split.
  - exists (map (fun k => nth k qs 0%nat) js). cbn. split; [reflexivity|]. split; [|split; [|split; [|exact K2]]].
    + intros q Hq. apply in_map_iff in Hq. destruct Hq as (j & <- & Hj'). eapply nth_error_In, pick_place, Hj, Hj'.
    + intros _. clear Hl. induction js as [|j js IH]; [constructor|]. inversion Hn; subst. cbn. constructor; [|apply IH; auto; intros; apply Hj; now right].
      intros Hin. apply in_map_iff in Hin. destruct Hin as (j' & E & Hj'). assert (j' = j); [|now subst].
      apply (proj1 (NoDup_nth qs 0%nat) Hqs); auto; apply Hj; [now right|now left].
    + intros a Ea. rewrite K3 in Ea. injection Ea as <-. now rewrite map_length.
  - exists (map (fun k => nth k qs 0%nat) js). split; [reflexivity|]. clear Hl Hn. induction js as [|j js IH]; constructor; [apply pick_place, Hj; now left|].
    apply IH. intros; apply Hj; now right.
Qed.
Lemma steps_fine l : steps_ok (length qs) l -> fine c (map (on qs cond) l).
Proof.
  intros H o Ho. apply in_map_iff in Ho. destruct Ho as (s & <- & Hs). unfold steps_ok in H. rewrite Forall_forall in H. split; [now apply step_ok, H|]. apply lib_kind.
Qed.
Lemma steps_does l : steps_ok (length qs) l -> forall v, does c (map (on qs cond) l) v = act_steps false (num_qubits Ccring c) l ts v.
Proof.
  intros H. unfold does. set (e := part c (map (on qs cond) l)).
  assert (Q : sc_qubits Ccring e = sc_qubits Ccring c) by reflexivity. clearbody e. revert H. induction l as [|[g js] l IH]; intros H v; [reflexivity|].
  inversion H as [|? ? Hs Hl]; subst. cbn [map acted act_steps]. destruct (step_ok (g, js) Hs) as (Hw & Hp).
  assert (E : target_indices Ccring e (uncond (on qs cond (g, js))) = Ok (map (fun k => nth k ts 0) js)).
  { destruct (placed_wf Ccring c (uncond (on qs cond (g, js)))) as (ts' & E & Hp' & _); [exact Hw|].
    rewrite (placed_unique Ccring c _ _ _ Hnd Hp' Hp) in E. unfold target_indices in *. now rewrite Q. }
  rewrite E. rewrite IH by exact Hl. unfold cact, num_qubits. now rewrite Q.
Qed.
End Steps.

(** ** Products of matrices *)
Fixpoint product (l : list gate1) : cmat :=
  match l with [] => matrix1 GIdentity | g :: l' => matmul Ccring 2 (product l') (matrix1 g) end.

Lemma write_read n l i : NoDup l -> (forall q, In q l -> q < n) -> write false n i l (read false n i l) = i.
Proof.
  intros Hn Hl. apply N.bits_inj. intros j. rewrite (write_bit false n l) by auto. destruct (existsb _ l) eqn:E; [|reflexivity].
  apply existsb_exists in E. destruct E as (q & Hq & E). apply N.eqb_eq in E. subst j. now apply read_bit.
Qed.
Lemma op_apply_one n (G : cmat) T Cs (v : N -> C) i : NoDup T -> (forall q, In q T -> q < n) ->
  (forall r s, r < 2 ^ N.of_nat (length T) -> s < 2 ^ N.of_nat (length T) -> G r s = if r =? s then C1 else C0) ->
  @op_apply Ccring false n G T Cs v i = v i.
Proof.
  intros Hn Hl HG. unfold op_apply. destruct (forallb _ Cs); [|reflexivity].
  pose proof (read_lt (mkParams false n T Cs) T i) as Hr. cbn [p_le p_n] in Hr.
  rewrite (sumf_single Ccring _ _ (read false n i T)).
  - rewrite HG, N.eqb_refl by exact Hr. rewrite write_read by auto. cbn. ceq; ring.
  - apply NoDup_Nrange.
  - now apply In_Nrange.
  - intros s Hs Hne. apply In_Nrange in Hs. rewrite HG by auto. destruct (N.eqb_spec (read false n i T) s); [congruence|]. cbn. ceq; ring.
Qed.

Lemma product_acts n T Cs l (v : N -> C) i : length T = 1%nat -> (forall q, In q (T ++ Cs) -> q < n) -> NoDup (T ++ Cs) -> i < 2 ^ n ->
  fold_left (fun u g => @op_apply Ccring false n (matrix1 g) T Cs u) l v i = @op_apply Ccring false n (product l) T Cs v i.
Proof.
  intros HT Hlt Hnd. assert (HnT : NoDup T) by (eapply NoDup_left; eassumption). assert (HlT : forall q, In q T -> q < n) by (intros; apply Hlt, in_or_app; now left).
  revert v i. induction l as [|g l IH]; intros v i Hi.
  - cbn [fold_left product]. symmetry. apply op_apply_one; auto. rewrite HT. intros r s Hr Hs. destruct (two_cases r Hr) as [->| ->], (two_cases s Hs) as [->| ->]; reflexivity.
  - cbn [fold_left product]. rewrite IH by exact Hi. rewrite (op_apply_comp Ccring false n T Cs) by auto. now rewrite HT.
Qed.
Lemma ones_act n t l v i : t < n -> i < 2 ^ n -> act_steps false n (map one l) [t] v i = @op_apply Ccring false n (product l) [t] [] v i.
Proof.
  intros Ht Hi. rewrite <- (product_acts n [t] []); [|reflexivity|intros q [<-|[]]; exact Ht|repeat constructor; auto|exact Hi].
  revert v. induction l as [|g l IH]; intros v; [reflexivity|]. cbn [map act_steps one fold_left nth]. apply IH.
Qed.
Lemma twos_act n a t l v i : a < n -> t < n -> a <> t -> i < 2 ^ n -> act_steps false n (map two l) [a; t] v i = @op_apply Ccring false n (product l) [t] [a] v i.
Proof.
  intros Ha Ht Hne Hi. rewrite <- (product_acts n [t] [a]); [|reflexivity|intros q [<-|[<-|[]]]; auto|repeat constructor; cbn; intuition|exact Hi].
  revert v. induction l as [|g l IH]; intros v; [reflexivity|]. cbn [map act_steps two fold_left nth]. apply IH.
Qed.
Lemma op_apply_phase n (G G' : cmat) t z (v : N -> C) i : (forall r s, r < 2 -> s < 2 -> G' r s = Cmul z (G r s)) ->
  @op_apply Ccring false n G' [t] [] v i = Cmul z (@op_apply Ccring false n G [t] [] v i).
Proof.
  intros H. unfold op_apply. cbn [forallb]. etransitivity; [|apply (sumf_scale Ccring)]. apply sumf_ext. intros s Hs. apply In_Nrange in Hs.
  rewrite H; [cbn; ceq; ring|exact (read_lt (mkParams false n [t] []) [t] i)|exact Hs].
Qed.

Ltac entries := let r := fresh "r" in let s := fresh "s" in let Hr := fresh in let Hs := fresh in
  intros r s Hr Hs; destruct (two_cases r Hr) as [->| ->], (two_cases s Hs) as [->| ->]; unfold product, matmul, matrix1; csimp; f_equal.
Definition agree (l l' : list gate1) (z : C) : Prop := forall r s, r < 2 -> s < 2 -> product l' r s = Cmul z (product l r s).

(** Which bits a simulation writes, and that what it writes depends on the conditions alone. *)
From Coq Require Import List NArith Arith Bool Lia.
From Verif Require Import Py CRing KernelModel KernelSpec SimModel SimSpec SimProofs SimProofs4.
Import ListNotations.
Local Open Scope nat_scope.

(** The values [u] written over the values [f]. *)
Definition over (u f : nat -> option bool) (b : nat) : option bool := match u b with Some x => Some x | None => f b end.

Lemma in_window {A} n (bs : list A) b : forall idx,
  In b (firstn (S n) (skipn idx bs)) <-> In b (firstn n (skipn (S idx) bs)) \/ nth_error bs idx = Some b.
Proof.
  intros idx. revert bs. induction idx as [|idx IH]; intros [|x bs].
  - cbn. destruct n; cbn; intuition congruence.
  - cbn [skipn firstn In nth_error]. intuition congruence.
  - rewrite !skipn_nil, !firstn_nil. cbn. intuition congruence.
  - change (skipn (S idx) (x :: bs)) with (skipn idx bs). change (skipn (S (S idx)) (x :: bs)) with (skipn (S idx) bs). apply IH.
Qed.

Section S.
Variable K : cring.
Variable U : Type.
Variable gtb : K -> U -> bool.
Variable is0 : K -> bool.
Variable invsqrt : K -> K.
Variable rnd : nat -> U.
Notation apply_instruction := (apply_instruction K U gtb is0 invsqrt rnd).
Notation run_pure := (run_pure K U gtb is0 invsqrt rnd).
Notation run_mixed := (run_mixed K U gtb is0 invsqrt rnd).
Notation simulate := (simulate K U gtb is0 invsqrt rnd).
Notation measure_loop := (measure_loop K U gtb is0 invsqrt rnd).
Notation mem := (mem K).
Notation agree := (agree K).

Lemma measure_writes n mid bits ts : forall idx (m1 m2 : mem) v, m_pos K m1 = m_pos K m2 ->
  exists m1' m2' r u, measure_loop n mid bits idx ts m1 v = (m1', r) /\ measure_loop n mid bits idx ts m2 v = (m2', r) /\
    m_pos K m1' = m_pos K m2' /\
    (forall b, m_bits K m1' b = over u (m_bits K m1) b) /\ (forall b, m_bits K m2' b = over u (m_bits K m2) b) /\
    (forall b, u b <> None -> exists bs, bits = Some bs /\ In b (firstn (length ts) (skipn idx bs))) /\
    (is_ok r = true -> forall bs b, bits = Some bs -> In b (firstn (length ts) (skipn idx bs)) -> u b <> None).
Proof.
  induction ts as [|t ts IH]; intros idx m1 m2 v Hp.
  - exists m1, m2, (Ok v), (fun _ => None). repeat split; auto; try (cbn; congruence).
  - cbn [SimModel.measure_loop]. rewrite <- Hp.
    destruct (sample_qubit K U gtb is0 invsqrt false n t (rnd (m_pos K m1)) true v) as [[[o w] v']|e].
    + set (st := fun m : mem => match bits with
                    | Some bs => match nth_error bs idx with
                                 | Some b => set_bit K b (Nat.eqb o 1) (if w then warn K (next_rnd K m) else next_rnd K m)
                                 | None => warn K (if w then warn K (next_rnd K m) else next_rnd K m)
                                 end
                    | None => warn K (if w then warn K (next_rnd K m) else next_rnd K m)
                    end).
      set (u0 := fun b => match bits with
                          | Some bs => match nth_error bs idx with
                                       | Some b0 => if Nat.eqb b b0 then Some (Nat.eqb o 1) else None
                                       | None => None
                                       end
                          | None => None
                          end).
      assert (Hst : forall (m : mem) b, m_bits K (add_idx K mid t (st m)) b = over u0 (m_bits K m) b).
      { intros m b. unfold st, u0, over. destruct bits as [bs|]; [destruct (nth_error bs idx) as [b0|]|]; destruct w; cbn; try reflexivity;
          destruct (Nat.eqb b b0); reflexivity. }
      destruct (IH (S idx) (add_idx K mid t (st m1)) (add_idx K mid t (st m2)) v') as (m1' & m2' & r & u & E1 & E2 & P & A1 & A2 & W1 & W2).
      { unfold st. destruct bits as [bs|]; [destruct (nth_error bs idx)|]; destruct w; simpl; lia. }
      exists m1', m2', r, (over u u0). split; [exact E1|]. split; [exact E2|]. split; [exact P|].
      split; [|split; [|split]].
      * intros b. rewrite A1. unfold over at 1. rewrite Hst. unfold over. destruct (u b); reflexivity.
      * intros b. rewrite A2. unfold over at 1. rewrite Hst. unfold over. destruct (u b); reflexivity.
      * intros b Hb. unfold over in Hb. destruct (u b) eqn:Eu.
        -- destruct (W1 b) as (bs & -> & Hin); [congruence|]. exists bs. split; [reflexivity|]. cbn [length]. apply in_window. now left.
        -- unfold u0 in Hb. destruct bits as [bs|]; [|congruence]. exists bs. split; [reflexivity|]. cbn [length]. apply in_window. right.
           destruct (nth_error bs idx) as [b0|]; [|congruence]. destruct (Nat.eqb_spec b b0) as [->|]; congruence.
      * intros Hr bs b -> Hin. cbn [length] in Hin. apply in_window in Hin. unfold over. destruct (u b) eqn:Eu; [congruence|].
        destruct Hin as [Hin|Hin]; [now apply (W2 Hr bs b eq_refl) in Hin|]. unfold u0. rewrite Hin, Nat.eqb_refl. congruence.
    + exists (next_rnd K m1), (next_rnd K m2), (Err e), (fun _ => None). repeat split; auto; try discriminate; try (cbn; congruence).
Qed.

Lemma length_targets c o ts : target_indices K c o = Ok ts ->
  length ts = match so_qubits K o with Some qs => length qs | None => 0 end.
Proof.
  intros Et. unfold target_indices in Et. destruct (so_qubits K o) as [qs|]; [|discriminate].
  revert ts Et. induction qs as [|q qs IHq]; intros ts Et; simpl in Et; [now injection Et as <-|].
  destruct (index_of q (sc_qubits K c)); [|discriminate]. simpl in Et.
  destruct (mapM _ qs) as [l|] eqn:El; simpl in Et; [|discriminate]. injection Et as <-. simpl. f_equal. now apply IHq.
Qed.

Lemma apply_writes n le conj o ts (m1 m2 : mem) v : m_pos K m1 = m_pos K m2 -> is_blocked K m1 o = is_blocked K m2 o ->
  length ts = match so_qubits K o with Some qs => length qs | None => 0 end ->
  exists m1' m2' r u, apply_instruction n le conj o ts m1 v = (m1', r) /\ apply_instruction n le conj o ts m2 v = (m2', r) /\
    m_pos K m1' = m_pos K m2' /\
    (forall b, m_bits K m1' b = over u (m_bits K m1) b) /\ (forall b, m_bits K m2' b = over u (m_bits K m2) b) /\
    (forall b, u b <> None -> In b (stored_bits o)) /\
    (is_ok r = true -> so_cond K o = [] -> forall b, In b (stored_bits o) -> u b <> None).
Proof.
  intros Hp Eb Hl. destruct (is_measure (so_kind K o)) eqn:Em.
  - unfold SimModel.apply_instruction. rewrite <- Eb. destruct (is_blocked K m1 o) eqn:Eb1.
    { exists m1, m2, (Ok v), (fun _ => None). repeat split; auto; try (cbn; congruence). intros _ Ec.
      unfold is_blocked in Eb1. rewrite Ec in Eb1. discriminate. }
    destruct (so_kind K o) as [mid bits| | | | |] eqn:Ek; try discriminate.
    destruct le.
    { exists m1, m2, (Err CircuitError), (fun _ => None). repeat split; auto; try (cbn; congruence). }
    unfold measure.
    destruct (measure_writes n mid bits ts 0 (set_mstate K mid v m1) (set_mstate K mid v m2) v Hp) as (m1' & m2' & r & u & E1 & E2 & P & A1 & A2 & W1 & W2).
    exists m1', m2', r, u. split; [exact E1|]. split; [exact E2|]. split; [exact P|]. split; [exact A1|]. split; [exact A2|].
    unfold stored_bits. rewrite Ek. cbn [skipn] in W1, W2. rewrite Hl in W1, W2. split.
    + intros b Hb. destruct (W1 b Hb) as (bs & -> & Hin). destruct (so_qubits K o); [exact Hin|destruct Hin].
    + intros Hr _ b Hb. destruct bits as [bs|]; [|destruct Hb]. destruct (so_qubits K o) as [qs|]; [|destruct Hb].
      exact (W2 Hr bs b eq_refl Hb).
  - assert (Hr : exists r, apply_instruction n le conj o ts m1 v = (m1, r) /\ apply_instruction n le conj o ts m2 v = (m2, r)).
    { unfold SimModel.apply_instruction. rewrite <- Eb. destruct (is_blocked K m1 o); [eauto|].
      destruct (so_kind K o) as [mid bits| | | |nc dim g|nq g]; try discriminate; eauto.
      - destruct (negb _); [eauto|]. destruct nc as [|[|[|nc]]]; eauto.
      - destruct (negb _); eauto. }
    destruct Hr as (r & E1 & E2). exists m1, m2, r, (fun _ => None). repeat split; auto; try (cbn; congruence).
    intros _ _ b Hb. unfold stored_bits in Hb. destruct (so_kind K o); [discriminate|..]; destruct Hb.
Qed.

(** Two runs whose conditions agree write the same values into the same bits. *)
Lemma run_writes c le ops : forall D (m1 m2 : mem) v, agree D m1 m2 -> conditions_set D ops ->
  exists m1' m2' r u, run_pure c le ops m1 v = (m1', r) /\ run_pure c le ops m2 v = (m2', r) /\
    (forall b, m_bits K m1' b = over u (m_bits K m1) b) /\ (forall b, m_bits K m2' b = over u (m_bits K m2) b) /\
    (forall b, u b <> None -> exists o, In o ops /\ In b (stored_bits o)) /\
    (is_ok r = true -> forall o b, In o ops -> so_cond K o = [] -> In b (stored_bits o) -> u b <> None).
Proof.
  induction ops as [|o ops IH]; intros D m1 m2 v H Hc.
  - exists m1, m2, (Ok v), (fun _ => None). repeat split; auto; try (cbn; congruence).
  - destruct Hc as [Hi Hc]. cbn [SimModel.run_pure].
    destruct (target_indices K c o) as [ts|e] eqn:Et;
      [|exists m1, m2, (Err e), (fun _ => None); repeat split; auto; try discriminate; cbn; congruence].
    pose proof (length_targets c o ts Et) as Hl.
    destruct (apply_agree K U gtb is0 invsqrt rnd (num_qubits K c) le false o ts D m1 m2 v H Hi) as (n1 & n2 & r0 & F1 & F2 & B1 & B2).
    destruct (apply_writes (num_qubits K c) le false o ts m1 m2 v (proj1 H) (agree_blocked K D m1 m2 o H Hi) Hl)
      as (m1' & m2' & r & u & E1 & E2 & P & A1 & A2 & W1 & W2).
    rewrite E1 in F1. rewrite E2 in F2. injection F1 as <- <-. injection F2 as <-. rewrite E1, E2.
    destruct r as [v'|e].
    + assert (B3 : agree match so_cond K o with [] => stored_bits o ++ D | _ => D end m1' m2').
      { destruct (so_cond K o) eqn:Eo; [|exact B1]. now apply B2. }
      destruct (IH _ m1' m2' v' B3 Hc) as (q1 & q2 & r & u' & G1 & G2 & C1 & C2 & X1 & X2).
      exists q1, q2, r, (over u' u). split; [exact G1|]. split; [exact G2|]. split; [|split; [|split]].
      * intros b. rewrite C1. unfold over at 1. rewrite A1. unfold over. destruct (u' b); reflexivity.
      * intros b. rewrite C2. unfold over at 1. rewrite A2. unfold over. destruct (u' b); reflexivity.
      * intros b Hb. unfold over in Hb. destruct (u' b) eqn:Eu.
        -- destruct (X1 b) as (o' & Ho & Hb'); [congruence|]. exists o'. split; [now right|exact Hb'].
        -- exists o. split; [now left|now apply W1].
      * intros Hr o' b Ho Ec Hb. unfold over. destruct (u' b) eqn:Eu; [congruence|]. destruct Ho as [->|Ho].
        -- now apply (W2 eq_refl Ec b).
        -- exfalso. exact (X2 Hr o' b Ho Ec Hb Eu).
    + exists m1', m2', (Err e), u. split; [reflexivity|]. split; [reflexivity|]. split; [exact A1|]. split; [exact A2|]. split; [|discriminate].
      intros b Hb. exists o. split; [now left|now apply W1].
Qed.

(** With every condition in [D] the premise holds. *)
Lemma conditions_all (ops : list (sop K)) : forall D, (forall o, In o ops -> incl (so_cond K o) D) -> conditions_set D ops.
Proof.
  induction ops as [|o ops IH]; intros D H; [exact I|]. split; [apply H; now left|]. apply IH. intros o' Ho.
  destruct (so_cond K o); [apply incl_appr|]; apply H; now right.
Qed.

Lemma run_writes_one c le ops (m : mem) v :
  exists m' r u, run_pure c le ops m v = (m', r) /\ (forall b, m_bits K m' b = over u (m_bits K m) b) /\
    (forall b, u b <> None -> exists o, In o ops /\ In b (stored_bits o)) /\
    (is_ok r = true -> forall o b, In o ops -> so_cond K o = [] -> In b (stored_bits o) -> u b <> None).
Proof.
  destruct (run_writes c le ops (flat_map (so_cond K) ops) m m v) as (m' & m2 & r & u & E1 & _ & A & _ & W1 & W2).
  - split; auto.
  - apply conditions_all. intros o Ho b Hb. apply in_flat_map. eauto.
  - exists m', r, u. auto.
Qed.

(** Density matrix simulation writes no bit. *)
Lemma mixed_writes c ops : forall (m : mem) v b, m_bits K (fst (run_mixed c ops m v)) b = m_bits K m b.
Proof.
  induction ops as [|o ops IH]; intros m v b; cbn [SimModel.run_mixed]; [reflexivity|].
  destruct (is_measure (so_kind K o)) eqn:Em; [destruct (so_kind K o); try discriminate; reflexivity|].
  assert (A : forall X Y : mem * res (N -> K), X = Y -> m_bits K (fst Y) b = m_bits K m b -> m_bits K (fst X) b = m_bits K m b) by (intros; now subst).
  eapply A; [destruct (so_kind K o); try discriminate; reflexivity|].
  destruct (target_indices K c o) as [ts|e]; [|reflexivity].
  pose proof (apply_gate_mem K U gtb is0 invsqrt rnd (2 * num_qubits K c) false false o ts m v Em) as E1.
  destruct (apply_instruction _ _ _ o ts m v) as [m1 [v1|e]]; cbn in E1; subst m1; [|reflexivity].
  pose proof (apply_gate_mem K U gtb is0 invsqrt rnd (2 * num_qubits K c) false true o (map (fun t => t + num_qubits K c)%N ts) m v1 Em) as E2.
  destruct (apply_instruction _ _ _ o _ m v1) as [m2 [v2|e]]; cbn in E2; subst m2; [|reflexivity]. apply IH.
Qed.

(** A simulation overwrites bits; it empties none. *)
Lemma simulate_writes c mixed le (m : mem) : exists u, forall b, m_bits K (fst (simulate c mixed le m)) b = over u (m_bits K m) b.
Proof.
  unfold SimModel.simulate. destruct (sc_qubits K c); [exists (fun _ => None); reflexivity|]. destruct mixed.
  - exists (fun _ => None). intros b. pose proof (mixed_writes c (sc_ops K c) m (zero_state K) b) as H.
    destruct (run_mixed c (sc_ops K c) m (zero_state K)) as [m' r]. exact H.
  - destruct (run_writes_one c le (sc_ops K c) m (zero_state K)) as (m' & r & u & E & A & _). exists u. intros b. rewrite E. exact (A b).
Qed.
End S.

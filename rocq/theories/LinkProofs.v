(** Proofs for C67. *)
From Coq Require Import List ZArith NArith String Bool Arith Lia Reals.
From Verif Require Import Py CRing Cplx SimModel SimSpec SimReal GateModel GateProofs StateModel StateSpec StateProofs
  RegisterModel WorldModel WorldSpec WorldSpec4 WorldInv WorldInv2 WorldInv3 WorldWf2 WorldWf3 WorldInv5 WorldInv6 WorldInv7 WorldProofs2 ReplayProofs WorldArity WorldArity2 LinkModel LinkSpec.
Import ListNotations.
Local Open Scope nat_scope.
Local Open Scope string_scope.

(** ** The table *)
Definition entry_ok (x : cls) (f : list R -> option gate) : Prop :=
  (k_kind x = KMeas /\ k_name x = "Measurement") \/
  (k_kind x <> KMeas /\ exists n, (controlled x /\ n = 2 \/ ~ controlled x /\ k_numq x = Some n) /\
   forall ps, (has_params (k_kind x) = false /\ ps = [] \/ k_nparams x = Some (List.length ps)) ->
     exists g, f ps = Some g /\ stands (k_name x) ps g /\ @arity Ccring (gate_kind g) = Some n /\ @supported Ccring (gate_kind g)).
Lemma library_ok k x f : nth_error library k = Some (x, f) -> entry_ok x f.
Proof.
  intros E. unfold library in E.
  assert (Cp : forall n nm m, ~ controlled (mkCls nm KPlain n None None m)) by (intros; intros [H|H]; discriminate).
  assert (Cr : forall n nm m, ~ controlled (mkCls nm KParam n None None m)) by (intros; intros [H|H]; discriminate).
  assert (Cc : forall nm n a b m, controlled (mkCls nm KCtrl n a b m)) by (intros; left; reflexivity).
  assert (Cd : forall nm n a b m, controlled (mkCls nm KParCtrl n a b m)) by (intros; right; reflexivity).
  do 23 (destruct k as [|k];
    [cbn in E; injection E as <- <-;
     first [left; split; reflexivity|right; split; [discriminate|]];
     eexists; (split; [first [left; split; [now auto|reflexivity] | right; split; [now auto|reflexivity]]|]);
     intros ps [(Hk & ->)|Hn]; cbn in *; try discriminate;
     try (destruct ps as [|a [|b [|c [|d ps]]]]; try discriminate Hn); cbn;
     (eexists; split; [reflexivity|]; split; [|split; [reflexivity|cbn; auto]]);
     first [apply st_one; constructor | constructor; fail | apply (st_ctrl "X"); constructor | apply (st_ctrl "Y"); constructor | apply (st_ctrl "Z"); constructor
       | apply (st_ctrl "Hadamard"); constructor | apply (st_ctrl "RX"); constructor | apply (st_ctrl "RY"); constructor | apply (st_ctrl "RZ"); constructor
       | apply (st_ctrl "Rotation"); constructor] |]).
  destruct k; discriminate.
Qed.

(** ** Reading lists *)
Lemma all_some_map {A B} (f : A -> option B) (g : B -> A) (l : list A) :
  (forall a, In a l -> exists b, f a = Some b /\ a = g b) -> exists bs, all_some f l = Some bs /\ l = map g bs.
Proof.
  induction l as [|a l IH]; intros H; [now exists []|]. destruct (H a (or_introl eq_refl)) as (b & Hb & Ha).
  destruct IH as (bs & Hbs & Hl); [intros a' Ha'; apply H; now right|].
  exists (b :: bs). cbn. rewrite Hb, Hbs. split; [reflexivity|]. now rewrite Ha at 1; rewrite Hl.
Qed.
Lemma all_some_rel {A B} (f : A -> option B) (Q : A -> B -> Prop) (l : list A) :
  (forall a, In a l -> exists b, f a = Some b /\ Q a b) -> exists bs, all_some f l = Some bs /\ Forall2 Q l bs.
Proof.
  induction l as [|a l IH]; intros H; [exists []; split; [reflexivity|constructor]|]. destruct (H a (or_introl eq_refl)) as (b & Hb & Ha).
  destruct IH as (bs & Hbs & Hl); [intros a' Ha'; apply H; now right|].
  exists (b :: bs). cbn. rewrite Hb, Hbs. split; [reflexivity|]. now constructor.
Qed.
Lemma read_qubits l : Forall is_qubit l -> exists qs, all_some qubit_id l = Some qs /\ l = map IQubit qs.
Proof. intros H. apply all_some_map. rewrite Forall_forall in H. intros a Ha. destruct (H a Ha) as (q & ->). now exists q. Qed.
Lemma read_bits l : Forall is_bit l -> exists qs, all_some bit_id l = Some qs /\ l = map IBit qs.
Proof. intros H. apply all_some_map. rewrite Forall_forall in H. intros a Ha. destruct (H a Ha) as (q & ->). now exists q. Qed.
Lemma read_numbers l : Forall (number R) l -> exists ps, all_some number_of l = Some ps /\ l = map PNum ps.
Proof. intros H. apply all_some_map. rewrite Forall_forall in H. intros a Ha. destruct (H a Ha) as (q & ->). now exists q. Qed.
Lemma read_opt_bits o : (forall l, o = Some l -> Forall is_bit l) -> exists r, opt_all bit_id o = Some r /\ o = option_map (map IBit) r.
Proof.
  intros H. destruct o as [l|]; [|now exists None]. destruct (read_bits l (H l eq_refl)) as (r & E & ->). exists (Some r). cbn. now rewrite E.
Qed.
Lemma NoDup_map_inv' {A B} (f : A -> B) l : NoDup (map f l) -> NoDup l.
Proof. apply NoDup_map_inv. Qed.

Section Link.
Variable ptrue : R -> bool.
Variable peqb : R -> R -> bool.
Variable extra : list cls.
Variable p : prog R.
Variable v : world R.
Hypothesis Hex : executes R ptrue peqb (own_ok R) p (start R (library_classes ++ extra)%list).
Hypothesis Hvi : visits R ptrue peqb p (start R (library_classes ++ extra)%list) v.
Hypothesis Hsm : small R v.

Lemma link_reaches : reaches R ptrue peqb (own_ok R) v.
Proof. exists (library_classes ++ extra)%list, p. auto. Qed.
Lemma link_reaches_q : reaches R ptrue peqb (fun w y => own_methods R w y /\ keeps_registers R y) v.
Proof. eapply reaches_impl; [|exact link_reaches]. unfold own_ok. tauto. Qed.
Lemma link_class k x f : nth_error library k = Some (x, f) -> nth_error (library_classes ++ extra)%list k = Some x.
Proof.
  intros E. unfold library_classes. rewrite nth_error_app1 by (rewrite map_length; apply nth_error_Some; congruence).
  now rewrite (map_nth_error fst _ _ E).
Qed.

Variables (c : nat) (x : circ).
Hypothesis Hc : nth_error (w_circ v) c = Some x.

Lemma link_nodup : NoDup (circuit_qubits x) /\ Forall is_qubit (circuit_qubits x).
Proof.
  assert (J : JQ R v). { apply (JQ_reach R ptrue peqb); [|exact Hsm]. eapply reaches_impl; [|exact link_reaches_q]. simpl; tauto. }
  destruct (JQ_nth _ _ _ _ J Hc) as [A _]. split; [apply A|]. now apply (JQ_separate R v c x J Hc).
Qed.

Lemma link_op qs0 o y : circuit_qubits x = map IQubit qs0 -> In o (c_ops x) -> nth_error (w_op v) o = Some y -> ready v x o y ->
  exists s, seen_op v o = Some s /\ (shown v o s /\ forall c0, sc_qubits Ccring c0 = qs0 -> wf_op c0 s /\ unitary_kind (so_kind Ccring s)).
Proof.
  intros Hq0 Ho Ey [R1 (qs & Eq & R2) R3 R4 R5].
  destruct (nth_error library (o_cls y)) as [[k f]|] eqn:El; [|apply nth_error_None in El; lia].
  pose proof (library_ok _ _ _ El) as Hk. pose proof (link_class _ _ _ El) as Hks.
  destruct (parameters_kept R ptrue peqb _ p v (o_cls y) k Hvi Hks) as ((k' & Ek' & Nm & Kd) & Hpar).
  specialize (Hpar o y Ey eq_refl). specialize (R2 k' Ek'). specialize (R3 k' Ek').
  assert (Hown : forall q, In q qs -> In q (circuit_qubits x)).
  { intros q Hq. destruct (reached_own R ptrue peqb v c x o y qs q link_reaches Hsm Hc Ho Ey Eq Hq) as (l & r & Hr & Hi).
    unfold circuit_qubits, all_items. apply in_concat. exists (contents r). split; [|exact Hi]. apply in_map_iff. exists (l, r). auto. }
  destruct (read_qubits qs) as (is & Ei & ->).
  { rewrite Forall_forall. intros q Hq. pose proof (proj2 link_nodup) as F. rewrite Forall_forall in F. apply F, Hown, Hq. }
  destruct (read_opt_bits _ R5) as (cb & Ecb & Hcb).
  assert (Hin : incl is qs0).
  { intros q Hq. specialize (Hown (IQubit q) (in_map _ _ _ Hq)). rewrite Hq0 in Hown. apply in_map_iff in Hown. destruct Hown as (q' & [= ->] & H). exact H. }
  assert (Sh : forall g, seen_kind o y = Some g -> seen_op v o = Some (mkSop Ccring g (Some is) match cb with Some l => l | None => [] end)).
  { intros g Hg. unfold seen_op. rewrite Ey, Hg, Eq. unfold opt_all at 1. rewrite Ei. cbn [option_map]. rewrite Ecb. reflexivity. }
  assert (Hcond : match o_cond y with Some l => l = map IBit match cb with Some l => l | None => [] end | None => match cb with Some l => l | None => [] end = [] end).
  { rewrite Hcb. destruct cb; reflexivity. }
  destruct Hk as [(Km & Kn)|(Km & n & Hn & Hg)].
  - destruct (read_opt_bits _ R4) as (mb & Emb & Hmb).
    assert (Sk : seen_kind o y = Some (KMeasure Ccring o mb)). { unfold seen_kind. rewrite El, Km, Emb. reflexivity. }
    eexists. split; [apply Sh, Sk|]. split.
    + exists y, k', is. repeat (split; [first [assumption|reflexivity]|]). cbn. repeat split; congruence.
    + intros c0 Hc0. split; [|exact I]. exists is. cbn. rewrite Hc0. repeat split; auto; discriminate.
  - assert (Hnum : Forall (number R) (o_params y)).
    { destruct Hpar as [->|(Hp & _)]; [constructor|]. rewrite <- Kd in Hp. destruct (R3 Hp) as (_ & H).
      destruct (c_par x) eqn:Ep; [auto|]. destruct (k_kind k') eqn:Kk; try discriminate Hp.
      - eapply (reached_numbers R ptrue peqb _ v c x o y k' link_reaches Hc Ep Ho Ey Ek' Kk).
      - apply H. right. now right. }
    destruct (read_numbers _ Hnum) as (ps & Eps & Hps).
    destruct (Hg ps) as (g & Fg & St & Ar & Su).
    { destruct Hpar as [H|(_ & H)].
      - destruct (has_params (k_kind k)) eqn:Hp; [rewrite <- Kd in Hp; now destruct (R3 Hp)|]. left. split; [reflexivity|].
        rewrite H in Hps. now destruct ps.
      - right. now rewrite Hps, map_length in H. }
    assert (Sk : seen_kind o y = Some (gate_kind g)). { unfold seen_kind. rewrite El, Eps, Fg. destruct (k_kind k); try reflexivity. now destruct Km. }
    destruct R2 as (R2 & R2'). rewrite Kd in R2. specialize (R2 Km).
    eexists. split; [apply Sh, Sk|]. split.
    + exists y, k', is. repeat (split; [first [assumption|reflexivity]|]). cbn [so_kind].
      assert (D : exists ps gt, o_params y = map PNum ps /\ stands (k_name k') ps gt /\ gate_kind g = gate_kind gt).
      { exists ps, g. rewrite Nm. auto. }
      destruct g; exact D.
    + intros c0 Hc0. split; [|apply gate_kind_unitary]. exists is. cbn [so_qubits so_kind]. rewrite Hc0.
      split; [reflexivity|]. split; [exact Hin|]. split; [intros _; exact (NoDup_map_inv _ _ R2)|]. split; [|exact Su].
      intros m Hm. rewrite Ar in Hm. injection Hm as <-. destruct Hn as [(Hctl & ->)|(Hctl & Hn)].
      * rewrite <- (map_length IQubit is). apply R2'. unfold controlled in *. now rewrite Kd.
      * rewrite <- (map_length IQubit is). refine (arity_kept R ptrue peqb _ p v (o_cls y) k n o y _ Hvi Hks Hn _ Ey eq_refl Eq).
        intros H. now destruct Hctl.
Qed.

Hypothesis Hready : forall o y, In o (c_ops x) -> nth_error (w_op v) o = Some y -> ready v x o y.
Lemma link_seen : circuit_qubits x <> [] ->
  exists s, seen v c = Some s /\ circuit_qubits x = map IQubit (sc_qubits Ccring s) /\ Forall2 (shown v) (c_ops x) (sc_ops Ccring s) /\
    wf_circ s /\ unitary_circ s.
Proof.
  intros Hne. destruct (C13_q R ptrue peqb v c x link_reaches_q Hsm Hc) as (r & w' & Eq & Ei & _).
  destruct link_nodup as [Nd Fq]. destruct (read_qubits _ Fq) as (qs & Es & Hqs).
  destruct (all_some_rel (seen_op v) (fun o s => shown v o s /\ forall c0, sc_qubits Ccring c0 = qs -> wf_op c0 s /\ unitary_kind (so_kind Ccring s)) (c_ops x))
    as (os & Eo & F).
  { intros o Ho. assert (L : exists y, nth_error (w_op v) o = Some y).
    { pose proof (wf_ops _ _ (WF_reach _ _ _ _ _ link_reaches) c x o Hc Ho) as L. destruct (nth_error (w_op v) o) eqn:E; [eauto|]. apply nth_error_None in E. lia. }
    destruct L as (y & Ey). apply (link_op qs o y); auto. }
  exists (mkScirc Ccring qs os). unfold seen. rewrite Hc, Eq. cbn [snd]. rewrite Ei, Es, Eo. split; [reflexivity|]. split; [exact Hqs|].
  assert (Hall : forall s, In s os -> forall c0, sc_qubits Ccring c0 = qs -> wf_op c0 s /\ unitary_kind (so_kind Ccring s)).
  { clear -F. induction F as [|o s l l' [_ H] _ IH]; intros s' [].
    - now subst.
    - now apply IH. }
  split; [|split; [split; [|split]|]].
  - clear -F. induction F as [|o s l l' [H _] _ IH]; constructor; assumption.
  - cbn. rewrite Hqs in Nd. exact (NoDup_map_inv _ _ Nd).
  - cbn. intros ->. now rewrite Hqs in Hne.
  - intros s Hs. now apply (Hall s Hs).
  - intros s Hs. now apply (Hall s Hs (mkScirc Ccring qs os)).
Qed.
End Link.

Lemma link_simulates ptrue peqb extra p (v : world R) c x (rnd : nat -> R) (st : cst) :
  executes R ptrue peqb (own_ok R) p (start R (library_classes ++ extra)%list) ->
  visits R ptrue peqb p (start R (library_classes ++ extra)%list) v -> small R v ->
  nth_error (w_circ v) c = Some x -> (forall o y, In o (c_ops x) -> nth_error (w_op v) o = Some y -> ready v x o y) ->
  1 <= List.length (circuit_qubits x) <= 30 -> (forall k, uniform (rnd k)) ->
  exists s m a, seen v c = Some s /\ circuit_qubits x = map IQubit (sc_qubits Ccring s) /\
    Forall2 (shown v) (c_ops x) (sc_ops Ccring s) /\ wf_circ s /\ unitary_circ s /\
    simulate_set rnd s false false (memory v) st
      = (m, mkCst (Some (mkArr [2 ^ N.of_nat (List.length (circuit_qubits x))]%N a)) None, Ok tt) /\
    normalised (N.of_nat (List.length (circuit_qubits x))) a.
Proof.
  intros He Hv Hs Hc Hr Hn Hu. destruct (link_seen ptrue peqb extra p v He Hv Hs c x Hc Hr) as (s & E1 & E2 & E3 & E4 & E5).
  { intros H. rewrite H in Hn. cbn in Hn. lia. }
  assert (L : N.of_nat (List.length (circuit_qubits x)) = SimModel.num_qubits Ccring s).
  { unfold SimModel.num_qubits. now rewrite E2, map_length. }
  destruct (simulate_sets_state rnd s false (memory v) st Hu E4 E5) as (m & a & H1 & _ & H2); [rewrite <- L; lia|discriminate|].
  exists s, m, a. rewrite L. auto 10.
Qed.

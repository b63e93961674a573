(** Which constructions are accepted: proofs for C73. *)
From Coq Require Import List ZArith String Bool Arith Lia.
From Verif Require Import Py RegisterModel RegisterSpec RegisterProofs WorldModel WorldSpec WorldSpec3 WorldSpec4 WorldReg WorldInv WorldInv2 WorldInv3 WorldInv4 WorldInv5 WorldInv6 WorldInv7 WorldWf WorldWf2 WorldWf3 WorldOps WorldCtx3 WorldBuild WorldOwn2 ReplayProofs MakeSpec MakeProofs.
Import ListNotations.
Local Open Scope nat_scope.

Section Make2.
Variable P : Type.
Variable ptrue : P -> bool.
Variable peqb : P -> P -> bool.
Notation world := (world P).
Notation M := (M P).

Definition found (w : world) (c : nat) (q : item) : Prop := exists r, snd (qubits c w) = Ok r /\ count (core r) q = Ok true.
Lemma checks_accept c l : forall (w : world) x, nth_error (w_circ w) c = Some x -> (forall q, In q l -> found w c q) ->
  snd (iterM (@check_own P c) l w) = Ok tt.
Proof.
  induction l as [|q l IH]; intros w x E H; [reflexivity|].
  destruct (qubits_shape P c w x E) as (v & H1 & H2 & H3). destruct (H q (or_introl eq_refl)) as (r & Er & Ec).
  destruct (qubits c w) as [w1 r1] eqn:Eq. cbn [fst snd] in *. subst r1. specialize (H2 r eq_refl). subst v.
  assert (C : iterM (check_own c) (q :: l) w = iterM (check_own c) l w1).
  { cbn [iterM]. unfold check_own at 1, mbind, lift. now rewrite Eq, Ec. }
  rewrite C. assert (E1 : nth_error (w_circ w1) c = Some (view_q x (Some r))) by (rewrite H1; cbn; eapply set_nth_same; eauto).
  apply (IH w1 _ E1). intros p Hp. destruct (H p (or_intror Hp)) as (r' & Er' & Ec'). rewrite Eq in Er'. cbn in Er'. injection Er' as <-.
  exists r. split; [|exact Ec']. now rewrite (qubits_again P c w1 _ r E1 eq_refl).
Qed.
Lemma append_accepts (w : world) c x o y k : nth_error (w_circ w) c = Some x -> nth_error (w_op w) o = Some y ->
  nth_error (w_cls w) (o_cls y) = Some k ->
  (snd (append_op ptrue c o w) = Ok tt <-> c_locked x = false /\ (forall q, In q (oqubits y) -> found w c q) /\
     (parametric x = false -> has_params (k_kind k) = true -> forall p, In p (o_params y) -> exists q, stands_for P ptrue w p q)).
Proof.
  intros E Eo Ek. split.
  - intros H. destruct (append_run P ptrue w c x o y k E Eo Ek) as (v & ps & l & _ & _ & B). rewrite H in B. destruct B as (_ & B1 & B2 & B3).
    split; [exact B1|]. split; [exact B2|]. intros H1 H2 p Hp. rewrite H1, H2 in B3. cbn in B3. clear - B3 Hp.
    induction B3 as [|a b la lb Hab _ IH]; [destruct Hp|]. destruct Hp as [<-|Hp]; eauto.
  - intros (L & Q & V). unfold append_op. rewrite (bind_ok _ _ _ _ _ _ (get_circ_some P c w x E)), L.
    assert (G1 : get_op o w = (w, Ok y)) by (unfold get_op; now rewrite Eo).
    assert (G2 : get_cls (o_cls y) w = (w, Ok k)) by (unfold get_cls; now rewrite Ek).
    rewrite (bind_ok _ _ _ _ _ _ G1), (bind_ok _ _ _ _ _ _ G2).
    assert (R : exists l, when (negb (parametric x) && has_params (k_kind k)) (op_eval ptrue o None) w = (set_op w l, Ok tt)).
    { destruct (parametric x) eqn:Ep, (has_params (k_kind k)) eqn:Eh; cbn [negb andb when]; try (exists (w_op w); destruct w; reflexivity).
      specialize (V eq_refl eq_refl). apply (eval_accepts P ptrue w (o_params y) 0) in V.
      unfold op_eval. rewrite (bind_ok _ _ _ _ _ _ G1). unfold put_op, lift, read, mbind. rewrite V. cbn. eauto. }
    destruct R as (l & R). rewrite (bind_ok _ _ _ _ _ _ R).
    assert (E1 : nth_error (w_circ (set_op w l)) c = Some x) by exact E.
    assert (C : snd (iterM (@check_own P c) (oqubits y) (set_op w l)) = Ok tt).
    { apply (checks_accept c _ (set_op w l) x E1). intros q Hq. destruct (Q q Hq) as (r & Er & Ec). exists r. split; [|exact Ec].
      rewrite <- Er. apply (qubits_cached P w (set_op w l) c x x); auto. }
    destruct (checks_run P c (oqubits y) (set_op w l) x E1) as (v & K1 & _). destruct (iterM (check_own c) (oqubits y) (set_op w l)) as [w2 r2] eqn:Ei.
    cbn [fst snd] in *. subst r2. rewrite (bind_ok _ _ _ _ _ _ Ei).
    assert (E2 : nth_error (w_circ w2) c = Some (view_q x v)) by (rewrite K1; cbn; eapply set_nth_same; eauto).
    now rewrite (upd_circ_run P c _ w2 _ E2).
Qed.

Lemma same_found (w w' : world) c q : w_circ w' = w_circ w -> w_bit w' = w_bit w -> (found w' c q <-> found w c q).
Proof. intros H1 H2. unfold found. destruct (qubits_frame_op P c w w' H1 H2) as [-> _]. reflexivity. Qed.
Lemma same_stands (w w' : world) p q : w_var w' = w_var w -> (stands_for P ptrue w' p q <-> stands_for P ptrue w p q).
Proof. intros H. unfold stands_for. now rewrite H. Qed.

Definition fine (w : world) (x : cls) (gs : list (param P)) (qs : option (list item)) : Prop :=
  (w_active w <> None -> qs <> None) /\ (forall l n, qs = Some l -> wants x n -> List.length l = n) /\
  forall c z, recording P w = Some c -> nth_error (w_circ w) c = Some z -> c_locked z = false /\
    (forall l q, qs = Some l -> In q l -> found w c q) /\
    (parametric z = false -> has_params (k_kind x) = true -> forall p, In p gs -> exists q, stands_for P ptrue w p q).

Lemma init_accepts (w : world) k x o y qs : sound P w -> nth_error (w_op w) o = Some y -> o_cls y = k -> nth_error (w_cls w) k = Some x ->
  (snd (op_init ptrue k o qs w) = Ok tt <-> fine w x (o_params y) qs).
Proof.
  intros S Eo Ec Ek. unfold op_init. rewrite (read_bind P).
  match goal with |- context [mbind ?m _ w] => set (pre := m) end.
  assert (Hpre : (exists e v, pre w = (v, Err e) /\ ~ fine w x (o_params y) qs) \/
    (exists v y1 x', pre w = (v, Ok tt) /\ (w_active w <> None -> qs <> None) /\ (forall l n, qs = Some l -> wants x n -> List.length l = n) /\
       w_circ v = w_circ w /\ w_bit v = w_bit w /\ w_active v = w_active w /\ w_ctx v = w_ctx w /\ w_var v = w_var w /\
       nth_error (w_op v) o = Some y1 /\ o_qubits y1 = qs /\ o_params y1 = o_params y /\ nth_error (w_cls v) (o_cls y1) = Some x' /\ k_kind x' = k_kind x)).
  { unfold pre. destruct qs as [l|].
    - pose proof (check_accepts P w k x l Ek) as Ca. destruct (effect_check P k l w) as (A & B & C). destruct (check_qubits k l w) as [v [[]|e]] eqn:Eq; cbn [fst snd] in *.
      + destruct (ef_cls _ _ _ _ A k x Ek) as (x' & E' & S'). right.
        assert (G : get_cls k v = (v, Ok x')) by (unfold get_cls; now rewrite E'). pose proof Eo as Eo'. rewrite <- B in Eo'.
        do 3 eexists. split; [rewrite (bind_ok _ _ _ _ _ _ Eq), (bind_ok _ _ _ _ _ _ G), (upd_op_run P o _ v y Eo'); reflexivity|].
        split; [discriminate|]. split; [intros l' n [= <-]; now apply Ca|]. cbn.
        split; [exact C|]. split; [apply A|]. split; [apply A|]. split; [apply A|]. split; [apply A|].
        split; [eapply set_nth_same; exact Eo'|]. cbn. split; [reflexivity|]. split; [reflexivity|]. rewrite Ec. split; [exact E'|apply S'].
      + left. exists e, v. split; [now rewrite (bind_err _ _ _ _ _ _ Eq)|]. intros (_ & F & _).
        assert (Err (A:=unit) e = Ok tt) as K by (apply Ca; intros n Hn; now apply F). discriminate.
    - destruct (w_active w) as [a|] eqn:Ha.
      + left. exists TypeError, w. split; [reflexivity|]. intros (F & _). apply F; congruence.
      + right. assert (G : get_cls k w = (w, Ok x)) by (unfold get_cls; now rewrite Ek).
        do 3 eexists. split; [rewrite (bind_ok _ _ _ _ _ _ G), (upd_op_run P o _ w y Eo); reflexivity|].
        split; [congruence|]. split; [discriminate|]. cbn. split; [reflexivity|]. split; [reflexivity|]. split; [exact Ha|]. split; [reflexivity|]. split; [reflexivity|]. split; [eapply set_nth_same; exact Eo|]. cbn. rewrite Ec. split; [reflexivity|]. split; [reflexivity|]. split; [exact Ek|reflexivity]. }
  destruct Hpre as [(e & v & E1 & F)|(v & y1 & x' & E1 & F1 & F2 & V1 & V2 & V3 & V4 & V5 & V6 & V7 & V8 & V9 & V10)].
  { rewrite (bind_err _ _ _ _ _ _ E1). cbn. split; [discriminate|contradiction]. }
  rewrite (bind_ok _ _ _ _ _ _ E1). clear E1 pre.
  destruct (w_active w) as [a|] eqn:Ha.
  2: { cbn. split; [|reflexivity]. intros _. split; [congruence|]. split; [exact F2|]. intros c z H. unfold recording in H. now rewrite Ha in H. }
  destruct (S a Ha) as (c & b & z & H1 & H2).
  assert (G : get_ctx a v = (v, Ok (c, b))) by (unfold get_ctx; now rewrite V4, H1). rewrite (bind_ok _ _ _ _ _ _ G). cbn [fst snd]. destruct b.
  { cbn. split; [|reflexivity]. intros _. split; [intros _; apply F1; discriminate|]. split; [exact F2|]. intros c' z' H. unfold recording in H. now rewrite Ha, H1 in H. }
  assert (Ez : nth_error (w_circ v) c = Some z) by now rewrite V1.
  rewrite (append_accepts v c z o y1 x' Ez V6 V9), V10. unfold oqubits. rewrite V7, V8.
  assert (R : recording P w = Some c) by (unfold recording; now rewrite Ha, H1). split.
  - intros (L & Q & V). split; [intros _; apply F1; discriminate|]. split; [exact F2|]. intros c' z' Hc Hz. rewrite R in Hc. injection Hc as <-.
    rewrite H2 in Hz. injection Hz as <-. split; [exact L|]. split; [intros l q -> Hq; apply (same_found w v); auto|].
    intros K1 K2 p Hp. destruct (V K1 K2 p Hp) as [q Hq]. exists q. now apply (same_stands w v).
  - intros (_ & _ & F). destruct (F c z R H2) as (L & Q & V). split; [exact L|]. split.
    + intros q Hq. destruct qs as [l|]; [|destruct Hq]. apply (same_found w v); eauto.
    + intros K1 K2 p Hp. destruct (V K1 K2 p Hp) as [q Hq]. exists q. now apply (same_stands w v).
Qed.
Lemma bind_unit {A} (m : M unit) (a : A) (w : world) : (exists v, mbind m (fun _ => ret a) w = (v, Ok a)) <-> snd (m w) = Ok tt.
Proof. unfold mbind, ret. destruct (m w) as [v [[]|e]]; cbn; split; eauto; try discriminate. intros [u H]. discriminate. Qed.
Lemma bind_unit2 (m : M unit) o f (w : world) : (forall v, m w = (v, Ok tt) -> exists y, nth_error (w_op v) o = Some y) -> snd (mbind m (fun _ => upd_op o f) w) = Ok tt <-> snd (m w) = Ok tt.
Proof.
  intros H. unfold mbind at 1. destruct (m w) as [v [[]|e]] eqn:E; cbn [snd]; [|reflexivity]. destruct (H v eq_refl) as [y Hy]. rewrite (upd_op_run P o f v y Hy). cbn. reflexivity.
Qed.
Lemma fine_op (w : world) l x gs qs : fine (set_op w l) x gs qs <-> fine w x gs qs.
Proof. unfold fine, found. assert (Q : forall c, snd (qubits c (set_op w l)) = snd (qubits c w)) by (intros c; now apply qubits_frame_op). setoid_rewrite Q. reflexivity. Qed.

Lemma construct_accepts (w : world) k x ps a : sound P w -> nth_error (w_cls w) k = Some x ->
  ((exists o v, construct ptrue k ps a w = (v, Ok o)) <->
   match ps with Some l => parametrised (k_kind x) /\ k_nparams x = Some (List.length l) | None => ~ parametrised (k_kind x) end /\
   match a with ACT _ _ => controlled (k_kind x) | AQ _ => True end /\
   fine w x (args P ps) (given_qubits (k_kind x) a)).
Proof.
  intros S Ek. unfold construct. assert (G : get_cls k w = (w, Ok x)) by (unfold get_cls; now rewrite Ek).
  rewrite (bind_ok _ _ _ _ _ _ G), (read_bind P). unfold mbind at 1. cbv beta iota.
  set (o := List.length (w_op w)).
  assert (Red : forall m : M unit, (exists o' v, mbind m (fun _ => ret o) (set_op w (w_op w ++ [mkOp k None (k_numq x) [] None None None None])) = (v, Ok o')) <->
     snd (m (set_op w (w_op w ++ [mkOp k None (k_numq x) [] None None None None]))) = Ok tt).
  { intros m. rewrite <- (bind_unit m o). split; [|eauto]. intros (o' & v & H). exists v. revert H. unfold mbind, ret. destruct (m _) as [u [r|e]]; congruence. }
  rewrite Red. clear Red.
  assert (UE : forall y f, upd_op o f (set_op w (w_op w ++ [y])) = (set_op w (w_op w ++ [f y]), Ok tt)) by (intros y f; apply upd_end).
  assert (Sv : forall l, sound P (set_op w l)) by (intros l; exact S).
  assert (I : forall y qs, o_cls y = k -> snd (op_init ptrue k o qs (set_op w (w_op w ++ [y]))) = Ok tt <-> fine w x (o_params y) qs).
  { intros y qs Hy. rewrite (init_accepts (set_op w (w_op w ++ [y])) k x o y qs (Sv _) ltac:(cbn; apply nth_end) Hy Ek). apply fine_op. }
  assert (J : forall y l qs, o_cls y = k -> snd (par_init ptrue x k o l qs (set_op w (w_op w ++ [y]))) = Ok tt <-> k_nparams x = Some (List.length l) /\ fine w x l qs).
  { intros y l qs Hy. unfold par_init, check_params. destruct (k_nparams x) as [n|] eqn:En.
    - destruct (Nat.eqb_spec (List.length l) n) as [E|E].
      + unfold mbind at 1. cbn [ret]. unfold mbind. rewrite UE. rewrite I by exact Hy. cbn. subst n. tauto.
      + cbn. split; [discriminate|]. intros [H _]. congruence.
    - cbn. split; [discriminate|]. intros [H _]. discriminate. }
  assert (Pres : forall y l qs v, o_cls y = k -> par_init ptrue x k o l qs (set_op w (w_op w ++ [y])) = (v, Ok tt) -> exists y', nth_error (w_op v) o = Some y').
  { intros y l qs v Hy H. unfold par_init in H. unfold mbind in H.
    destruct (check_params x l (set_op w (w_op w ++ [y]))) as [v0 [[]|e]] eqn:Ep; [|discriminate].
    assert (v0 = set_op w (w_op w ++ [y])) as -> by (clear - Ep; unfold check_params, ret, raise in Ep; destruct (k_nparams x); [destruct (Nat.eqb _ _)|]; now injection Ep).
    rewrite UE in H.
    destruct (op_init_spec P ptrue (set_op w (w_op w ++ [with_oparams y l])) k x o (with_oparams y l) qs (Sv _) ltac:(cbn; apply nth_end) Hy Ek) as (y' & x' & m & _ & A & _).
    rewrite H in A. cbn in A. exists y'. rewrite A. unfold o. rewrite set_nth_end. apply nth_end. }
  unfold parametrised, controlled.
  assert (Sp : forall a c, split_args x a = c -> controlled (k_kind x) -> snd c = given_qubits (k_kind x) a) by (intros a0 c <- K; now apply split_given).
  destruct (k_kind x) eqn:Kk, ps as [l|], a as [qs|c t]; cbn [given_qubits args];
    try (cbn; split; [discriminate|]; intros (H1 & H2 & _); first [destruct H1 as [[H1|H1] _]; discriminate|destruct H1; tauto|destruct H2; discriminate]).
  all: try (destruct (split_args x _) as [[ctl tgt] ql] eqn:Es; pose proof (Sp _ _ Es ltac:(unfold controlled; tauto)) as Sq; cbn [snd] in Sq; subst ql; unfold mbind at 1; rewrite UE; cbv beta iota).
  all: try (rewrite I by reflexivity; cbn; intuition discriminate).
  all: try (rewrite J by reflexivity; cbn; intuition discriminate).
  all: rewrite bind_unit2 by (intros v Hv; revert Hv; apply Pres; reflexivity); rewrite J by reflexivity; cbn; intuition discriminate.
Qed.

Lemma found_iff (w : world) c x q : JQ P w -> SV P w -> small P w -> nth_error (w_circ w) c = Some x -> (found w c q <-> in_qreg x q).
Proof.
  intros Hj Hs S E. split.
  - intros H. apply in_circuit_qubits. exact (own_in P w c x q Hj Hs S E H).
  - intros (n & r0 & H1 & H2). assert (Hi : In q (circuit_qubits x)).
    { unfold circuit_qubits, all_items. apply in_concat. exists (contents r0). split; [|exact H2]. apply in_map_iff. exists (n, r0). auto. }
    destruct (qubits_run P c w x Hj S E) as (r & E' & R & G & K & _). exists r. rewrite E'. split; [reflexivity|].
    assert (C : contents r = circuit_qubits x) by (apply K; right; intros N; rewrite N in H1; destruct H1).
    rewrite (count_prim r q R), C; [f_equal; now apply inb_In|]. rewrite <- C in Hi. rewrite Forall_forall in G. eapply gq_prim; eauto.
Qed.
Theorem accepted_iff (v : world) k x ps a : reaches P ptrue peqb (fun w y => own_methods P w y /\ keeps_registers P y) v -> small P v -> nth_error (w_cls v) k = Some x ->
  ((exists o v', construct ptrue k ps a v = (v', Ok o)) <-> accepted P ptrue v x ps a).
Proof.
  intros R Sm Ek.
  assert (Hj : JQ P v) by (eapply JQ_reach; [eapply reaches_impl; [|exact R]; intros ? ? H; apply H|exact Sm]).
  assert (Hs : SV P v) by (eapply SV_reach; [eapply reaches_impl; [|exact R]; intros ? ? H; apply H|exact Sm]).
  assert (S : sound P v) by (apply WF_sound; eapply WF_reach; exact R).
  assert (Hp : forall kk, has_params kk = true <-> parametrised kk).
  { intros []; cbn; unfold parametrised; split; intros H; try discriminate H; try (destruct H as [H|H]; discriminate H); auto. }
  assert (Ht : forall z, parametric z = false <-> ~ takes_variables z).
  { intros z. rewrite <- parametric_takes. destruct (parametric z); split; intros; congruence. }
  rewrite (construct_accepts v k x ps a S Ek). split.
  - intros (A1 & A2 & B1 & B2 & B3). constructor; auto. intros c z Hc Hz. destruct (B3 c z Hc Hz) as (L & Q & V).
    split; [exact L|]. split; [intros l q Hl Hq; apply (found_iff v c z q Hj Hs Sm Hz); eauto|].
    intros T l p -> Hin. apply (V (proj2 (Ht z) T)); [apply Hp; apply A1|exact Hin].
  - intros [A1 A2 B1 B2 B3]. split; [exact A1|]. split; [exact A2|]. split; [exact B1|]. split; [exact B2|]. intros c z Hc Hz. destruct (B3 c z Hc Hz) as (L & Q & V).
    split; [exact L|]. split; [intros l q Hl Hq; apply (found_iff v c z q Hj Hs Sm Hz); eauto|].
    intros T _ p Hin. destruct ps as [l|]; [|destruct Hin]. exact (V (proj1 (Ht z) T) l p eq_refl Hin).
Qed.

(** ** Calling *)
Lemma orelse_instead (q old : option (list item)) : instead q old (orelse q old).
Proof. unfold instead, orelse, blank. destruct q as [[|a l]|]; cbn; [left|right|left]; auto. split; [intros [H|H]; discriminate|reflexivity]. Qed.
Theorem call_made (v v' : world) o a o' : reaches P ptrue peqb (fun _ _ => True) v -> call_op ptrue o a v = (v', Ok o') ->
  exists y x a' z, nth_error (w_op v) o = Some y /\ nth_error (w_cls v) (o_cls y) = Some x /\ again P x y a a' /\
    one_new P v v' o' z /\ made P ptrue v (o_cls y) x (if has_params (k_kind x) then o_params y else []) a' z.
Proof.
  intros R H. unfold call_op in H. unfold mbind at 1, get_op in H. destruct (nth_error (w_op v) o) as [y|] eqn:Eo; [|discriminate].
  cbn [the ret] in H. unfold mbind at 1, get_cls in H. destruct (nth_error (w_cls v) (o_cls y)) as [x|] eqn:Ek; [|discriminate]. cbn [the ret] in H.
  exists y, x. assert (N : forall k, k_kind x = k -> k <> KCtrl -> k <> KParCtrl -> ~ controlled (k_kind x)) by (intros k -> H1 H2 [K|K]; auto).
  assert (C : forall ps b, construct ptrue (o_cls y) ps b v = (v', Ok o') -> args P ps = (if has_params (k_kind x) then o_params y else []) -> again P x y a b ->
     exists a' z, Some y = Some y /\ nth_error (w_cls v) (o_cls y) = Some x /\ again P x y a a' /\ one_new P v v' o' z /\ made P ptrue v (o_cls y) x (if has_params (k_kind x) then o_params y else []) a' z).
  { intros ps b Hc Ha Hb. destruct (construct_made P ptrue peqb v v' (o_cls y) ps b o' R Hc) as (x0 & z & E0 & Z1 & Z2).
    rewrite Ek in E0. injection E0 as <-. rewrite Ha in Z2. exists b, z. auto. }
  destruct (k_kind x) eqn:Kk, a as [qs|c t]; try discriminate H; eapply C; try exact H; try reflexivity;
    try (apply again_plain; [rewrite Kk; unfold controlled; intros [K|K]; discriminate|apply orelse_instead]);
    (apply again_controlled; [rewrite Kk; unfold controlled; auto|apply orelse_instead..]).
Qed.
End Make2.

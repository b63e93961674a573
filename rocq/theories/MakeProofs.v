(** Constructing and calling operations: proofs for C73. *)
From Coq Require Import List ZArith String Bool Arith Lia.
From Verif Require Import Py RegisterModel RegisterSpec RegisterProofs WorldModel WorldSpec WorldSpec3 WorldSpec4 WorldReg WorldInv WorldInv2 WorldInv3 WorldInv4 WorldInv5 WorldInv6 WorldInv7 WorldWf WorldWf2 WorldWf3 WorldOps WorldCtx3 WorldBuild WorldOwn2 MakeSpec.
Import ListNotations.
Local Open Scope nat_scope.

Section Make.
Variable P : Type.
Variable ptrue : P -> bool.
Variable peqb : P -> P -> bool.
Notation world := (world P).
Notation M := (M P).

(** ** What is constructed *)
Lemma split_parts x a : parts (k_ncontrol x) a (fst (fst (split_args x a))) (snd (fst (split_args x a))) (snd (split_args x a)).
Proof.
  destruct a as [[[|q l]|]|[[|c cs]|] [[|t ts]|]]; cbn; try (constructor; unfold blank; auto; discriminate).
  destruct (k_ncontrol x) as [m|]; cbn [take drop].
  - apply (parts_divided (Some m) m (q :: l)); [reflexivity|discriminate|symmetry; apply firstn_skipn|now rewrite firstn_length].
  - constructor; [reflexivity|discriminate].
Qed.
Lemma resolved_params (w : world) k ps ps' : (k = KParam -> resolved P ptrue w KParam ps ps') -> (k = KParCtrl -> ps' = ps) ->
  (k <> KParam -> k <> KParCtrl -> ps' = []) -> same_params P (stands_for P ptrue w) w k ps ps'.
Proof.
  intros H1 H2 H3. unfold same_params. destruct k; try (apply H3; discriminate); [|now apply H2]. specialize (H1 eq_refl). unfold resolved in H1.
  destruct (recording P w) as [c|]; [|exact H1]. destruct H1 as (z & E & H). exists z. split; [exact E|].
  pose proof (parametric_takes z) as T. destruct (parametric z); cbn in H.
  - split; [auto|]. intros N. destruct N. now apply T.
  - split; [|auto]. intros N. apply T in N. discriminate.
Qed.
Lemma effect_adds (w w' : world) l : effect P w w' l -> only_adds P w w' l.
Proof.
  intros E. constructor; try apply E. intros c y Hc. destruct (ef_circ _ _ _ _ E c y Hc) as (y' & H1 & H2). exists y'. split; [exact H1|].
  unfold recs in H2. split.
  - intros R. rewrite R, Nat.eqb_refl in H2. exact H2.
  - intros R. destruct (recording P w) as [d|]; [|exact H2]. destruct (Nat.eqb d c) eqn:N; [|exact H2]. apply Nat.eqb_eq in N. congruence.
Qed.
Definition args (ps : option (list (param P))) : list (param P) := match ps with Some l => l | None => [] end.
Lemma kinds (k : kind) : controlled k \/ ~ controlled k.
Proof. unfold controlled. destruct k; auto; right; intros [H|H]; discriminate. Qed.
Lemma built_made (w : world) k x ps a y : (forall c t, a = ACT c t -> controlled (k_kind x)) -> built P ptrue w k x ps a y -> made P ptrue w k x (args ps) a y.
Proof.
  intros Ha [B1 B2 _ B4 B5 B6 B7 B8 _ _ _]. constructor; auto.
  - destruct (kinds (k_kind x)) as [K|K]; [left|right]; (split; [exact K|]).
    + rewrite B2, <- (split_given x a K). destruct K as [K|K]; rewrite K in B7, B8; rewrite B7, B8; apply split_parts.
    + destruct a as [qs|c t]; [|destruct (K (Ha c t eq_refl))]. unfold controlled in K.
      split; [f_equal; rewrite B2; destruct (k_kind x); try reflexivity; destruct K; auto|].
      rewrite B7, B8. destruct (k_kind x); auto; destruct K; auto.
  - apply resolved_params; intros; rewrite ?H in *; try (destruct ps; [exact B4|contradiction]).
    destruct (k_kind x), ps; try contradiction; auto; congruence.
Qed.
Lemma fitting (w : world) k x ps a : nth_error (w_cls w) k = Some x -> (exists v o, construct ptrue k ps a w = (v, Ok o)) ->
  match ps with Some _ => parametrised (k_kind x) | None => ~ parametrised (k_kind x) end /\ (forall c t, a = ACT c t -> controlled (k_kind x)).
Proof.
  intros Ek (v & o & H). unfold construct in H. assert (G : get_cls k w = (w, Ok x)) by (unfold get_cls; now rewrite Ek).
  rewrite (bind_ok _ _ _ _ _ _ G), (read_bind P) in H. unfold mbind at 1 in H. unfold parametrised, controlled.
  destruct (k_kind x), ps as [ps|], a as [qs|c t]; try discriminate H; (split; [auto; intros [K|K]; discriminate|]); intros c' t' E; try discriminate E; auto.
Qed.
Theorem construct_made (v v' : world) k ps a o : reaches P ptrue peqb (fun _ _ => True) v -> construct ptrue k ps a v = (v', Ok o) ->
  exists x y, nth_error (w_cls v) k = Some x /\ one_new P v v' o y /\ made P ptrue v k x (args ps) a y.
Proof.
  intros R H. pose proof (WF_sound P v (WF_reach P ptrue peqb _ v R)) as S. destruct (construct_spec P ptrue v k ps a S) as (l & E & B).
  rewrite H in E, B. unfold built_ok in B. cbn [fst snd] in *. destruct B as (-> & -> & x & y & B1 & B2 & B3). exists x, y. split; [exact B1|]. split.
  - constructor; auto; [now apply effect_adds|apply E].
  - apply built_made; [|exact B3]. apply (fitting v k x ps a B1). eauto.
Qed.

(** ** What is accepted *)
Lemma nonzero_some o : nonzero o = true <-> exists n, o = Some (Datatypes.S n).
Proof. destruct o as [[|n]|]; cbn; split; intros H; try discriminate; try (destruct H as [? H]; discriminate); eauto. Qed.
Lemma check_accepts (w : world) k x l : nth_error (w_cls w) k = Some x ->
  (snd (check_qubits k l w) = Ok tt <-> forall n, wants x n -> List.length l = n).
Proof.
  intros Ek. unfold check_qubits. assert (G : get_cls k w = (w, Ok x)) by (unfold get_cls; now rewrite Ek). rewrite (bind_ok _ _ _ _ _ _ G).
  destruct (k_numq x) as [n|] eqn:En.
  2: { cbn. split; [|reflexivity]. intros _ n [(H & _)|(H & _)]; congruence. }
  assert (Hs : forall m, has_sum x m <-> nonzero (k_ncontrol x) = true /\ nonzero (k_ntarget x) = true /\ controlled (k_kind x) /\
     m = match k_ncontrol x, k_ntarget x with Some a, Some b => a + b | _, _ => 0 end).
  { intros m. unfold has_sum. rewrite !nonzero_some. split.
    - intros (K & c & t & -> & -> & ->). eauto 7.
    - intros ((c & ->) & (t & ->) & K & ->). split; [exact K|]. exists c, t. auto. }
  unfold cls_num_qubits, settle. unfold mbind at 1 2. rewrite (bind_ok _ _ _ _ _ _ G).
  assert (Plain : (forall m, ~ has_sum x m) \/ nonzero (k_numq x) = true -> snd ((let! n0 := (let! x0 := get_cls k in match k_numq x0 with Some n1 => ret n1 | None => raise AttributeError end) in
      if Nat.eqb (List.length l) n0 then ret tt else raise ValueError) w) = Ok tt <-> (forall m, wants x m -> List.length l = m)).
  { intros Hp. unfold mbind at 1. rewrite (bind_ok _ _ _ _ _ _ G), En. cbn [ret]. destruct (Nat.eqb_spec (List.length l) n) as [E|E]; cbn.
    - split; [|reflexivity]. intros _ m [(H & _)|(H & H2)]; [congruence|]. destruct Hp as [Hp|Hp]; [destruct (Hp m H2)|rewrite H in Hp; discriminate].
    - split; [discriminate|]. intros H. destruct E. apply H. left. split; [exact En|]. intros -> m Hm. destruct Hp as [Hp|Hp]; [exact (Hp m Hm)|rewrite En in Hp; discriminate]. }
  unfold mbind in Plain at 1.
  destruct (kinds (k_kind x)) as [K|K].
  2: { assert (Hk : match k_kind x with KCtrl | KParCtrl => False | _ => True end) by (unfold controlled in K; destruct (k_kind x); auto).
       assert (Hp : forall m, ~ has_sum x m) by (intros m (H & _); contradiction). specialize (Plain (or_introl Hp)).
       destruct (k_kind x); try contradiction; exact Plain. }
  assert (Hk : forall T (a b : T), match k_kind x with KCtrl | KParCtrl => a | _ => b end = a) by (intros; destruct K as [-> | ->]; reflexivity).
  rewrite Hk. destruct (negb (nonzero (k_numq x)) && nonzero (k_ncontrol x) && nonzero (k_ntarget x))%bool eqn:Ec.
  2: { apply Plain. destruct (nonzero (k_numq x)) eqn:Ez; [auto|]. left. intros m Hm. apply Hs in Hm. destruct Hm as (H1 & H2 & _). rewrite H1, H2 in Ec. discriminate. }
  apply andb_true_iff in Ec. destruct Ec as [Ec E3]. apply andb_true_iff in Ec. destruct Ec as [E1 E2].
  assert (n = 0) as -> by (rewrite En in E1; destruct n; [reflexivity|discriminate]).
  apply nonzero_some in E2, E3. destruct E2 as [c E2], E3 as [t E3]. rewrite E2, E3. cbv beta iota.
  unfold mbind at 1, get_cls. cbn [w_cls set_cls]. rewrite (set_nth_same _ _ _ _ Ek). cbn [the ret k_numq].
  destruct (Nat.eqb_spec (List.length l) (Datatypes.S c + Datatypes.S t)) as [E|E]; cbn [ret raise snd].
  - split; [|reflexivity]. intros _ m [(H & Hn)|(H & H2)].
    + assert (m = 0) as -> by congruence. destruct (Hn eq_refl (Datatypes.S c + Datatypes.S t)). split; [exact K|]. eauto 6.
    + destruct H2 as (_ & c' & t' & F1 & F2 & ->). congruence.
  - split; [discriminate|]. intros H. destruct E. apply H. right. split; [exact En|]. split; [exact K|]. eauto 6.
Qed.

Lemma eval_accepts (w : world) ps : forall i, snd (eval_loop ptrue w i None ps) = Ok tt <-> forall p, In p ps -> exists q, stands_for P ptrue w p q.
Proof.
  induction ps as [|p ps IH]; intros i; cbn [eval_loop]; [split; [intros _ p []|reflexivity]|]. specialize (IH (Datatypes.S i)).
  destruct p as [z|n].
  - destruct (eval_loop ptrue w (Datatypes.S i) None ps) as [r o]. cbn [snd] in *. rewrite IH. split.
    + intros H p [<-|Hp]; [exists (PNum z); reflexivity|auto].
    + intros H p Hp. apply H. now right.
  - assert (V : match var_value w n with Some p => if ptrue p then Ok p else Err ValueError | None => Err ValueError end = Err ValueError /\ (forall q, ~ stands_for P ptrue w (PVar n) q) \/
      exists z, match var_value w n with Some p => if ptrue p then Ok p else Err ValueError | None => Err ValueError end = Ok z /\ stands_for P ptrue w (PVar n) (PNum z)).
    { unfold var_value. destruct (nth_error (w_var w) n) as [[s [z|]]|] eqn:E.
      - destruct (ptrue z) eqn:T; [right; exists z; split; [reflexivity|exists s, z; auto]|]. left. split; [reflexivity|]. intros q (s' & z' & H & T' & _). congruence.
      - left. split; [reflexivity|]. intros q (s' & z' & H & _). congruence.
      - left. split; [reflexivity|]. intros q (s' & z' & H & _). congruence. }
    destruct V as [[-> V]|(z & -> & V)].
    + cbn. split; [discriminate|]. intros H. destruct (H (PVar n) (or_introl eq_refl)) as [q Hq]. destruct (V q Hq).
    + destruct (eval_loop ptrue w (Datatypes.S i) None ps) as [r o]. cbn [snd] in *. rewrite IH. split.
      * intros H p [<-|Hp]; [eauto|auto].
      * intros H p Hp. apply H. now right.
Qed.
End Make.

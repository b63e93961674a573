(** Proofs about mixed properties. *)
From Coq Require Import List String Bool Arith Lia.
From Verif Require Import Py WorldModel MixedModel MixedSpec.
Import ListNotations.
Local Open Scope string_scope.
Local Open Scope list_scope.

Section MixedProofs.
Variables V env : Type.
Variable none : V.
Notation mworld := (mworld V env).
Notation m_cls := (m_cls V env).
Notation m_inst := (m_inst V env).
Notation k_dict := (k_dict V env).
Notation k_mro := (k_mro V env).
Notation k_locked := (k_locked V env).
Notation inherits := (inherits V env).
Notation mstep := (mstep V env).
Notation mruns := (mruns V env).
Notation type_lookup := (type_lookup V env).
Notation seek := (seek V env).

Definition own (w : mworld) (n : string) (k : nat) : option (entry V env) :=
  match nth_error (m_cls w) k with Some K => dget String.eqb n (k_dict K) | None => None end.
Lemma owns_own w k n x : owns V env w k n x <-> own w n k = Some x.
Proof.
  unfold owns, own. split.
  - intros (K & -> & H). exact H.
  - destruct (nth_error (m_cls w) k); [eauto|discriminate].
Qed.
Lemma seek_own w n l : seek w n l = match l with [] => None | k :: l' => match own w n k with Some x => Some x | None => seek w n l' end end.
Proof. destruct l as [|k l]; [reflexivity|]. cbn. unfold own. destruct (nth_error (m_cls w) k); reflexivity. Qed.
Lemma seek_first w n x : forall l, (exists before k after, l = before ++ k :: after /\ own w n k = Some x /\ forall k', In k' before -> own w n k' = None) <-> seek w n l = Some x.
Proof.
  induction l as [|k l IH]; rewrite seek_own.
  - split; [intros ([|] & k & a & H & _); discriminate H|discriminate].
  - split.
    + intros ([|b before] & k' & after & E & Hk & Hb); injection E as -> E.
      * now rewrite Hk.
      * rewrite (Hb b (or_introl eq_refl)). apply IH. exists before, k', after. repeat split; auto. intros k0 H0. apply Hb. now right.
    + destruct (own w n k) as [y|] eqn:Ek.
      * intros [= ->]. exists [], k, l. repeat split; auto. intros k' [].
      * intros H. apply IH in H. destruct H as (before & k' & after & -> & Hk & Hb). exists (k :: before), k', after.
        repeat split; auto. intros k0 [<-|H0]; auto.
Qed.
Lemma lookup_inherits w c n x : inherits w c n x <-> type_lookup w c n = Some x.
Proof.
  unfold MixedSpec.inherits, MixedModel.type_lookup. split.
  - intros (K & before & k & after & -> & E & Ho & Hb). apply seek_first. exists before, k, after. split; [exact E|]. split; [now apply owns_own|].
    intros k' Hk'. destruct (own w n k') as [y|] eqn:Ey; [|reflexivity]. exfalso. apply (Hb k' y Hk'). now apply owns_own.
  - destruct (nth_error (m_cls w) c) as [K|]; [|discriminate]. intros H. apply seek_first in H. destruct H as (before & k & after & E & Ho & Hb).
    exists K, before, k, after. repeat split; auto; [now apply owns_own|]. intros k' y Hk' Hy. apply owns_own in Hy. rewrite (Hb k' Hk') in Hy. discriminate.
Qed.

(** ** What a call leaves *)
Lemma set_nth_get {A} (l : list A) : forall a b x, nth_error (set_nth a x l) b = if Nat.eqb a b then match nth_error l b with Some _ => Some x | None => None end else nth_error l b.
Proof. induction l as [|y l IH]; intros [|a] [|b] x; cbn; auto; destruct (Nat.eqb a b); reflexivity. Qed.
Lemma length_set {A} (l : list A) : forall a x, List.length (set_nth a x l) = List.length l.
Proof. induction l as [|y l IH]; intros [|a] x; cbn; auto. Qed.
Lemma dget_dset (A : Type) n m (v : A) d : n <> m -> dget String.eqb n (dset String.eqb m v d) = dget String.eqb n d.
Proof.
  intros Hn. apply String.eqb_neq in Hn as Hn'. induction d as [|[k u] d IH]; cbn; [now rewrite Hn'|].
  destruct (String.eqb m k) eqn:E; cbn; [|now rewrite IH]. apply String.eqb_eq in E. subst k. now rewrite Hn'.
Qed.
Lemma dget_ddel (A : Type) n m (d : list (string * A)) : n <> m -> dget String.eqb n (ddel m d) = dget String.eqb n d.
Proof.
  intros Hn. unfold ddel. induction d as [|[k u] d IH]; cbn; [reflexivity|]. destruct (String.eqb k m) eqn:E; cbn; [|now rewrite IH].
  apply String.eqb_eq in E. subst k. apply String.eqb_neq in Hn. now rewrite Hn.
Qed.

(** The class and the classes it inherits from are as they were, as far as [n] goes. *)
Record stays (w w' : mworld) (c : nat) (n : string) : Prop := {
  st_len : (List.length (m_cls w) <= List.length (m_cls w'))%nat;
  st_mro : forall k K, nth_error (m_cls w) k = Some K -> exists K', nth_error (m_cls w') k = Some K' /\ k_mro K' = k_mro K /\ k_locked K' = k_locked K;
  st_own : forall K k, nth_error (m_cls w) c = Some K -> In k (k_mro K) -> own w' n k = own w n k
}.
Lemma stays_refl w c n : stays w w c n.
Proof. constructor; eauto. Qed.
Lemma stays_inst w l c n : stays w (mkM V env (m_cls w) l) c n.
Proof. constructor; cbn; eauto. Qed.
Lemma stays_step w x c n : bases_exist V env w c -> ~ touches V env w c n x -> stays w (fst (mstep x w)) c n.
Proof.
  intros Hb Ht. destruct x as [bases d l|k|o m v|o m v|o m|k m v|k m]; cbn.
  - constructor; cbn.
    + rewrite app_length. lia.
    + intros k K E. exists K. rewrite nth_error_app1; [auto|]. apply nth_error_Some. congruence.
    + intros K k E Hk. unfold own. cbn. rewrite nth_error_app1; [reflexivity|]. exact (Hb K k E Hk).
  - match goal with |- context [if ?b then _ else _] => destruct b end; [apply stays_inst|apply stays_refl].
  - destruct (nth_error (m_inst w) o) as [i|]; [|apply stays_refl]. destruct (type_lookup w (i_cls V i) m) as [[p|u]|]; try apply stays_refl; apply stays_inst.
  - destruct (nth_error (m_inst w) o) as [i|]; [|apply stays_refl]. apply stays_inst.
  - destruct (nth_error (m_inst w) o) as [i|]; [|apply stays_refl]. destruct (type_lookup w (i_cls V i) m) as [[p|u]|], (dget String.eqb m (i_dict V i)); try apply stays_refl; apply stays_inst.
  - destruct (nth_error (m_cls w) k) as [K|] eqn:E; [|apply stays_refl].
    destruct (existsb (String.eqb m) (k_locked K)) eqn:El; [apply stays_refl|]. constructor; cbn.
    + now rewrite length_set.
    + intros k0 K0 E0. rewrite set_nth_get. destruct (Nat.eqb_spec k k0) as [->|Hk]; [|eauto]. rewrite E0. rewrite E in E0. injection E0 as <-. eexists. split; [reflexivity|]. auto.
    + intros K0 k0 E0 Hk0. unfold own. cbn. rewrite set_nth_get. destruct (Nat.eqb_spec k k0) as [<-|Hk]; [|reflexivity]. rewrite E. cbn.
      apply dget_dset. intros <-. apply Ht. exists K0, k. repeat split; auto. left. split; [eauto|]. intros (K1 & E1 & H1). rewrite E in E1. injection E1 as <-.
      rewrite <- not_true_iff_false in El. apply El. apply existsb_exists. exists n. split; [exact H1|apply String.eqb_refl].
  - destruct (nth_error (m_cls w) k) as [K|] eqn:E; [|apply stays_refl].
    destruct (dget String.eqb m (k_dict K)); [|apply stays_refl]. constructor; cbn.
    + now rewrite length_set.
    + intros k0 K0 E0. rewrite set_nth_get. destruct (Nat.eqb_spec k k0) as [->|Hk]; [|eauto]. rewrite E0. rewrite E in E0. injection E0 as <-. eexists. split; [reflexivity|]. auto.
    + intros K0 k0 E0 Hk0. unfold own. cbn. rewrite set_nth_get. destruct (Nat.eqb_spec k k0) as [<-|Hk]; [|reflexivity]. rewrite E. cbn.
      apply dget_ddel. intros <-. apply Ht. exists K0, k. repeat split; auto.
Qed.
Lemma stays_touches w w' c n x : stays w w' c n -> (exists K, nth_error (m_cls w) c = Some K) -> bases_exist V env w c -> touches V env w' c n x -> touches V env w c n x.
Proof.
  intros St (K & E) Hb (K' & k & E' & Hk & H). destruct (st_mro _ _ _ _ St c K E) as (K1 & E1 & Em & _). rewrite E' in E1. injection E1 as <-. rewrite Em in Hk.
  exists K, k. repeat split; auto. destruct H as [(H & Hl)|H]; [left|now right]. split; [exact H|]. intros (K2 & E2 & H2). apply Hl.
  destruct (st_mro _ _ _ _ St k K2 E2) as (K3 & E3 & _ & El). exists K3. split; [exact E3|]. now rewrite El.
Qed.
Lemma seek_ext w w' n : forall l, (forall k, In k l -> own w' n k = own w n k) -> seek w' n l = seek w n l.
Proof. induction l as [|k l IH]; intros H; [reflexivity|]. rewrite !(seek_own _ n (k :: l)). rewrite (H k (or_introl eq_refl)), IH; [reflexivity|]. intros k' Hk'. apply H. now right. Qed.
Lemma stays_lookup w w' c n x : stays w w' c n -> type_lookup w c n = Some x -> type_lookup w' c n = Some x.
Proof.
  unfold MixedModel.type_lookup. intros St. destruct (nth_error (m_cls w) c) as [K|] eqn:E; [|discriminate].
  destruct (st_mro _ _ _ _ St c K E) as (K' & -> & -> & _). intros <-. apply seek_ext. intros k Hk. exact (st_own _ _ _ _ St K k E Hk).
Qed.
Lemma runs_lookup xs : forall w c n x, bases_exist V env w c -> (forall y, In y xs -> ~ touches V env w c n y) -> type_lookup w c n = Some x -> type_lookup (mruns xs w) c n = Some x.
Proof.
  induction xs as [|y xs IH]; intros w c n x Hb Ht E; [exact E|]. cbn.
  assert (St := stays_step w y c n Hb (Ht y (or_introl eq_refl))).
  assert (Hc : exists K, nth_error (m_cls w) c = Some K) by (unfold MixedModel.type_lookup in E; destruct (nth_error (m_cls w) c); [eauto|discriminate]).
  apply IH.
  - intros K' k E' Hk. destruct Hc as (K & EK). destruct (st_mro _ _ _ _ St c K EK) as (K1 & E1 & Em & _). rewrite E' in E1. injection E1 as <-. rewrite Em in Hk.
    eapply Nat.lt_le_trans; [exact (Hb K k EK Hk)|exact (st_len _ _ _ _ St)].
  - intros z Hz Hz'. apply (Ht z (or_intror Hz)). eapply stays_touches; eauto.
  - eapply stays_lookup; eauto.
Qed.

Lemma instance_reads (w : mworld) xs c n p o i e :
  bases_exist V env w c -> inherits w c n (EMixed V env p) -> (forall x, In x xs -> ~ touches V env w c n x) ->
  nth_error (m_inst (mruns xs w)) o = Some i -> i_cls V i = c ->
  (forall f, m_fun V env p = WBoth V env f -> get_inst V env none (mruns xs w) e o n = f e c (Some o)) /\
  (forall f, m_fun V env p = WClass V env f -> get_inst V env none (mruns xs w) e o n = f e c).
Proof.
  intros Hb Hi Ht Eo <-. apply lookup_inherits in Hi. apply (runs_lookup xs) in Hi; auto.
  unfold get_inst. rewrite Eo, Hi. unfold mget. split; intros f ->; destruct (m_required V env p); reflexivity.
Qed.
Lemma class_reads (w : mworld) xs c n p e :
  bases_exist V env w c -> inherits w c n (EMixed V env p) -> (forall x, In x xs -> ~ touches V env w c n x) ->
  (forall f, m_fun V env p = WBoth V env f -> m_required V env p = true -> get_class V env none (mruns xs w) e c n = Ok none) /\
  (forall f, m_fun V env p = WBoth V env f -> m_required V env p = false -> get_class V env none (mruns xs w) e c n = f e c None) /\
  (forall f, m_fun V env p = WClass V env f -> get_class V env none (mruns xs w) e c n = f e c).
Proof.
  intros Hb Hi Ht. apply lookup_inherits in Hi. apply (runs_lookup xs) in Hi; auto.
  unfold get_class. rewrite Hi. unfold mget. split; [|split]; intros f ->; [intros ->; reflexivity|intros ->; reflexivity|destruct (m_required V env p); reflexivity].
Qed.
Lemma controlled_reads (active : env -> bool) target rest (w : mworld) xs c e t :
  bases_exist V env w c -> inherits w c "matrix" (EMixed V env (controlled_matrix V env active target rest)) ->
  (forall x, In x xs -> ~ touches V env w c "matrix" x) -> target e c None = Ok t ->
  get_class V env none (mruns xs w) e c "matrix" = if active e then Err AttributeError else rest e c None t.
Proof.
  intros Hb Hi Ht E. destruct (class_reads w xs c "matrix" _ e Hb Hi Ht) as (_ & H & _).
  rewrite (H _ eq_refl eq_refl). cbn. now rewrite E.
Qed.
Lemma instance_readonly (w : mworld) o i n p v :
  nth_error (m_inst w) o = Some i -> inherits w (i_cls V i) n (EMixed V env p) ->
  mstep (MSetInst V env o n v) w = (w, Err AttributeError) /\ mstep (MDelInst V env o n) w = (w, Err AttributeError).
Proof. intros E H. apply lookup_inherits in H. cbn. rewrite E, H. auto. Qed.
Lemma class_locked (w : mworld) k n v : locks V env w k n -> mstep (MSetClass V env k n v) w = (w, Err ValueError).
Proof.
  intros (K & E & H). cbn. rewrite E. assert (Q : existsb (String.eqb n) (k_locked K) = true) by (apply existsb_exists; exists n; auto using String.eqb_refl).
  now rewrite Q.
Qed.
End MixedProofs.

(** Rotations cannot be loaded; any calls can be those of a module. *)
From Coq Require Import List ZArith String Bool Arith Lia.
From Verif Require Import Py QirModel QirSpec LinkModel RegisterModel WorldModel WorldSpec WorldSpec4 WorldInv LinkSpec ExportSpec LoadModel LoadSpec LoadProofs6 LoadProofs8 LoadMean2.
Import ListNotations.
Local Open Scope nat_scope.
Local Open Scope string_scope.

Lemma read_calls P ks : exists fs, calls_read P fs = ks.
Proof.
  exists [[map (ICall P) ks]]. unfold calls_read. cbn. rewrite !app_nil_r. induction ks as [|k ks IH]; [reflexivity|]. cbn. now rewrite IH.
Qed.
Definition three (n : string) : Prop := n = "Rotation" \/ n = "CRotation".
Lemma three_params : Forall (fun x => three (k_name x) -> (k_kind x = KParam \/ k_kind x = KParCtrl) /\ k_nparams x = Some 3) library_classes.
Proof.
  rewrite Forall_forall. intros x Hx T. cbn in Hx. destruct T as [T|T];
    repeat (destruct Hx as [<-|Hx]; [(discriminate T) || (cbn; auto)|]); destruct Hx.
Qed.
Lemma three_name n u : In (n, u) read_as -> u = "__quantum__qis__rot__body" \/ u = "__quantum__qis__crot__body" -> three n.
Proof.
  intros H U. assert (F : Forall (fun q => snd q = "__quantum__qis__rot__body" \/ snd q = "__quantum__qis__crot__body" -> three (fst q)) read_as).
  { rewrite Forall_forall. intros [m v] Hx T. cbn in Hx. cbn [fst snd] in *.
    repeat (destruct Hx as [Hx|Hx]; [injection Hx as <- <-; (unfold three; now auto) || (destruct T as [T|T]; discriminate T)|]). destruct Hx. }
  rewrite Forall_forall in F. exact (F (n, u) H U).
Qed.
Lemma three_refused P ptrue peqb more (w : world P) n kx np nq : ended P ptrue peqb more w -> named_class P w n kx -> three n -> refusal kx np nq <> None.
Proof.
  intros E (k & x & H1 & H2 & H3) T. destruct (ended_class P ptrue peqb more w k x E H1) as (kx' & H4 & (S1 & S2 & S3 & S4 & S5 & S6)). rewrite H3 in H4. injection H4 as <-.
  pose proof three_params as L. rewrite Forall_forall in L. specialize (L x (nth_error_In _ _ H1)). rewrite <- H2 in T. destruct (L T) as [Hk Hp].
  unfold refusal. rewrite S2, S5, Hp. destruct Hk as [-> | ->]; [destruct (Nat.eqb np 1)|destruct (_ && _)%bool]; discriminate.
Qed.
Lemma three_asks P ptrue peqb more (w : world P) ks gs mq mb e u args : ended P ptrue peqb more w -> asks P w ks gs mq mb e ->
  u = "__quantum__qis__rot__body" \/ u = "__quantum__qis__crot__body" -> In (Call P u args) ks -> e <> None.
Proof.
  intros E A U. induction A as [|v a ks gs mq mb e Q A IH|v a ks Q H|v a ks gs mq mb e H A IH|v a ks n kx e H Hn Hc Hr|v a ks n kx gs mq mb e H Hn Hc Hr A IH]; intros Hi.
  - destruct Hi.
  - destruct Hi as [Hi|Hi]; [|auto]. injection Hi as -> _. destruct U as [-> | ->]; discriminate Q.
  - discriminate.
  - destruct Hi as [Hi|Hi]; [|auto]. injection Hi as -> _. destruct (three_name _ _ H U) as [K|K]; discriminate K.
  - discriminate.
  - destruct Hi as [Hi|Hi]; [|auto]. injection Hi as -> _. exfalso. exact (three_refused P ptrue peqb more w n kx _ _ E Hc (three_name _ _ H U) Hr).
Qed.
Lemma rotation_refused P ptrue peqb more (w : world P) fs u args N : ended P ptrue peqb more w -> w_active w = None -> w_exit w = [] ->
  u = "__quantum__qis__rot__body" \/ u = "__quantum__qis__crot__body" -> In (Call P u args) (calls_read P fs) -> 0 < N -> Forall (below P N) (calls_read P fs) ->
  ssize_ok (zn (List.length (w_qubit w) + N + N) + 1) = true -> ssize_ok (zn (List.length (w_bit w) + N) + 1) = true ->
  exists w' e, load_module P ptrue fs None w = (w', Err e).
Proof.
  intros E Ha Hx U Hi HN B S1 S2. destruct (asks_total P ptrue peqb more w (calls_read P fs) E) as (gs & mq & mb & e & A).
  pose proof (three_asks P ptrue peqb more w _ gs mq mb e u args E A U Hi) as He.
  destruct (load_new P ptrue peqb more w fs gs mq mb e N E Ha Hx A HN B S1 S2) as (w' & x' & r & L & _ & _ & _ & Ld & _).
  exists w'. inversion Ld; subst; try contradiction. eexists. exact L.
Qed.

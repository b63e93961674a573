(** Sampling a measurement of a program that simulates. *)
From Coq Require Import List NArith ZArith Arith String Bool Lia Reals.
From Verif Require Import Py CRing Cplx KernelSpec SimModel SimSpec SimProofs SimProofs2 SimProofs3 SimProofs4 SimReal SimProofs5 MeasureSpec SimProofs7
  SampleModel SampleSpec SampleProofs SampleProofs2 GateModel StateModel StateSpec StateProofs
  RegisterModel WorldModel WorldSpec WorldSpec4 WorldInv WorldInv7 WorldCheck LinkModel LinkSpec LinkProofs SessionModel SessionSpec SessionProofs SessionProofs2 SessionProofs3 SessionProofs4
  BornSpec BornProofs.
Import ListNotations.
Local Open Scope nat_scope.
Local Open Scope string_scope.

Section Main.
Variable ptrue : R -> bool.
Variable peqb : R -> R -> bool.
Variable extra : list cls.
Variable p : sprog.
Variable s : session.
Variable c : nat.
Variable x : circ.
Variable rnd : nat -> R.
Hypothesis He : sexecutes ptrue peqb (own_ok R) p (begin (library_classes ++ extra)%list).
Hypothesis Hv : svisits ptrue peqb p (begin (library_classes ++ extra)%list) s.
Hypothesis Hsm : small R (s_w s).
Hypothesis Hc : nth_error (w_circ (s_w s)) c = Some x.
Hypothesis Hrd : forall o y, In o (c_ops x) -> nth_error (w_op (s_w s)) o = Some y -> ready (s_w s) x o y.
Hypothesis Hu : forall k, uniform (rnd k).
Let n := List.length (circuit_qubits x).
Hypothesis Hn1 : 1 <= n.
Hypothesis Hn30 : n <= 30.
Variables (before after : list nat) (o : nat).
Hypothesis Hops : c_ops x = (before ++ o :: after)%list.
Hypothesis Honce : ~ In o (before ++ after).
Hypothesis Hm : measures (s_w s) o.
Hypothesis Ha : always (s_w s) o.

Lemma session_measured : exists s' qs ts v y, sim c false false rnd s = (s', Ok tt) /\
  nth_error (w_op (s_w s)) o = Some y /\ o_qubits y = Some (map IQubit qs) /\ at_places x qs ts /\
  s_mst s' o = Some v /\ normalised (N.of_nat n) v /\ s_idx s' o = (s_idx s o ++ ts)%list /\ (forall t, In t ts -> (t < N.of_nat n)%N).
Proof.
  destruct (session_run ptrue peqb extra p s c x He Hv Hsm Hc Hrd Hn1 Hn30) as (sc & Es & En & Eq & Ef & Ew & Eu & Hrun).
  fold n in En. destruct (Hrun rnd Hu) as (m & a & Er & Esim).
  rewrite Hops in Ef. apply Forall2_app_inv_l in Ef. destruct Ef as (before' & l2 & F1 & F2 & Esc).
  inversion F2 as [|? so ? after' Fo F3]; subst l2. subst.
  pose proof Ew as (End & Ene & Ewf).
  destruct (shown_op _ _ _ Fo) as (y & k & qs & G1 & G2 & G3 & G4 & G5 & G6).
  destruct G6 as [(bs & Gk & _ & Gb)|[Gm _]]; [|apply (shown_measures _ _ _ Fo) in Hm; congruence].
  assert (L30 : (SimModel.num_qubits Ccring sc <= 30)%N) by (rewrite En; lia).
  destruct (run_measured rnd Hu sc (sc_ops Ccring sc) o so L30 End) with (m := found s) (v := zero_state Ccring) as (ts & m' & w & v0 & H1 & H2 & H3 & H4 & H5 & H6).
  - intros o' Ho. split; [now apply Ewf|now apply Eu].
  - exists before', after', bs. split; [exact Esc|]. split; [exact Gk|]. split; [now apply (shown_always _ _ _ Fo)|].
    intros o' Ho bits' Ek. assert (Hx : exists o1, In o1 (before ++ after) /\ shown (s_w s) o1 o').
    { apply in_app_or in Ho. destruct Ho as [Ho|Ho]; [destruct (F2_right _ _ _ F1 o' Ho) as (o1 & A & B)|destruct (F2_right _ _ _ F3 o' Ho) as (o1 & A & B)];
        exists o1; (split; [apply in_or_app; auto|exact B]). }
    destruct Hx as (o1 & Ho1 & Hsh). destruct (shown_op _ _ _ Hsh) as (_ & _ & _ & _ & _ & _ & _ & _ & [(bs1 & Ek1 & _)|[Hk _]]);
      [|rewrite Ek in Hk; discriminate]. rewrite Ek in Ek1. injection Ek1 as <- _. contradiction.
  - apply zero_normalised.
  - rewrite Er in H3. injection H3 as <- <-. rewrite En in H2, H6.
    eexists _, qs, ts, v0, y. split; [exact Esim|]. split; [exact G1|]. split; [exact G3|]. split; [|cbn [s_mst s_idx]; auto].
    destruct H1 as (qs0 & Q1 & Q2). rewrite G4 in Q1. injection Q1 as <-. unfold at_places.
    clear -Q2 Eq. induction Q2 as [|q t l l' H _ IH]; constructor; [|exact IH]. rewrite Eq, nth_error_map, H. reflexivity.
Qed.

(** The samples drawn afterwards. *)
Lemma session_sampled : (forall t, In t (s_idx s o) -> (t < N.of_nat n)%N) ->
  exists s' qs ts v y, sim c false false rnd s = (s', Ok tt) /\
  nth_error (w_op (s_w s)) o = Some y /\ o_qubits y = Some (map IQubit qs) /\ at_places x qs ts /\
  s_mst s' o = Some v /\ normalised (N.of_nat n) v /\ s_idx s' o = (s_idx s o ++ ts)%list /\
  forall oss, let l := (s_idx s o ++ ts)%list in l <> [] -> (forall os, In os oss -> List.length os = List.length l) ->
  exists bx : box, List.length bx = List.length oss * List.length l /\ in_unit bx /\
    volume bx = product (map (fun os => joint (N.of_nat n) l os v) oss) /\
    forall us, (forall k, uniform (us k)) ->
      (sample_list (N.of_nat n) o (found s') QNone us (List.length oss) = Ok (map (map bit_nat) oss) <->
       inside (map us (seq 0 (List.length oss * List.length l))) bx).
Proof.
  intros Hi. destruct session_measured as (s' & qs & ts & v & y & E1 & E2 & E3 & E4 & E5 & E6 & E7 & E8).
  exists s', qs, ts, v, y. repeat (split; [assumption|]). intros oss l Hl Hlen.
  apply (sample_box (N.of_nat n) o (found s') QNone v l oss); auto.
  - lia.
  - cbn. now rewrite E7.
  - intros q Hq. apply in_app_or in Hq. destruct Hq; auto.
Qed.
End Main.

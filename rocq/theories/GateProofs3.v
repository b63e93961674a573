(** The matrix of a controlled operation read inside a context. *)
From Coq Require Import List ZArith NArith Bool Lia.
From Verif Require Import Py CRing Cplx KernelSpec SimModel UnitaryModel UnitarySpec UnitaryProofs UnitaryProofs2
  UnitaryProofs3 GateModel GateProofs.
Import ListNotations.

Lemma forall2_in_r {A B} (R : A -> B -> Prop) l m y : Forall2 R l m -> In y m -> exists x, In x l /\ R x y.
Proof.
  induction 1 as [|a b l m H HF IH]; intros Hy; [destruct Hy|]. destruct Hy as [<-|Hy]; [exists a; simpl; auto|].
  destruct (IH Hy) as (x & Hx & Hr). exists x. simpl; auto.
Qed.

(** [at_pos qs q t]: [t] is the position of [q] in the circuit. *)
Definition at_pos (qs : list nat) (q : nat) (t : N) : Prop := nth_error qs (N.to_nat t) = Some q.

Theorem controlled_matrix_context qs nc u cs q ps t : NoDup qs -> (0 < nc)%nat -> length cs = nc ->
  NoDup (q :: cs) -> Forall2 (at_pos qs) cs ps -> at_pos qs q t ->
  ((forall p, In p (t :: ps) -> (p <= N.of_nat nc)%N) ->
     exists M, controlled_matrix false nc 1 2 u (Some qs) (OnInstance (Some cs) (Some [q]))
                 = Ok (Some (Z.of_nat (nc + 1), M)) /\
       forall i j, (i < 2 ^ N.of_nat (nc + 1))%N -> (j < 2 ^ N.of_nat (nc + 1))%N ->
         M i j = @ctrl_entry Ccring (N.of_nat (nc + 1)) ps t u i j) /\
  ((exists p, In p (t :: ps) /\ (N.of_nat nc < p)%N) ->
     controlled_matrix false nc 1 2 u (Some qs) (OnInstance (Some cs) (Some [q])) = Err ValueError).
Proof.
  intros Hnd Hnc Hl Hq HF Ht.
  assert (Ei : indices qs cs = Ok (map Z.of_N ps)) by now apply indices_placed.
  assert (Et : indices qs [q] = Ok (map Z.of_N [t])) by (apply indices_placed; auto; constructor; auto; constructor).
  assert (Etr : truthy (Some cs) = true) by (destruct cs; [simpl in Hl; lia|reflexivity]).
  assert (Hps : NoDup (t :: ps)).
  { inversion Hq as [|? ? Hn Hc]; subst. constructor.
    - intros Hin. destruct (forall2_in_r _ _ _ _ HF Hin) as (x & Hx & Hx'). unfold at_pos in *. congruence.
    - clear -HF Hc. induction HF as [|a b l m H HF IH]; [constructor|].
      inversion Hc as [|? ? Hn Hc']; subst. constructor; [|auto]. intros Hin.
      destruct (forall2_in_r _ _ _ _ HF Hin) as (x & Hx & Hx'). unfold at_pos in *. congruence. }
  unfold controlled_matrix. cbn [andb]. rewrite Etr. cbn [truthy andb bind]. rewrite Ei, Et. cbn [bind fst snd map].
  replace (Z.of_nat (nc + 1)) with (Z.of_N (N.of_nat (nc + 1))) by lia. split.
  - intros Hle. destruct (bcu_correct Ccring (N.of_nat (nc + 1)) ps t u) as (M & E & HM).
    + intros p Hp. specialize (Hle p Hp). lia.
    + exact Hps.
    + rewrite E. exists M. split; [reflexivity|exact HM].
  - intros (p & Hp & Hlt). rewrite (bcu_too_large Ccring _ _ _ _ _ (Z.of_N p)); [reflexivity| |lia].
    destruct Hp as [<-|Hp]; [apply in_or_app; right; now left|]. apply in_or_app. left. now apply in_map.
Qed.

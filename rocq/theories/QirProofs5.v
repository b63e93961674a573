(** Proofs about numberings. *)
From Coq Require Import List String Bool Arith Lia.
From Verif Require Import Py QirModel QirSpec QirProofs QirProofs2 QirProofs3 QirProofs4.
Import ListNotations.
Local Open Scope string_scope.
Local Open Scope list_scope.

Definition place (l : list nat) (q : nat) : nat := match posn q l with Some k => k | None => 0 end.
Lemma posn_nth q : forall l k, posn q l = Some k -> nth_error l k = Some q.
Proof.
  induction l as [|x l IH]; cbn; [discriminate|]. intros k. destruct (Nat.eqb q x) eqn:E; [apply Nat.eqb_eq in E; intros [= <-]; now subst|].
  destruct (posn q l) as [j|]; [|discriminate]. intros [= <-]. cbn. auto.
Qed.
Lemma place_nth l q : In q l -> nth_error l (place l q) = Some q.
Proof. intros H. unfold place. destruct (posn_in _ _ H) as (k & E). rewrite E. now apply posn_nth. Qed.
Lemma place_inj l q q' : In q l -> In q' l -> place l q = place l q' -> q = q'.
Proof. intros H H' E. apply place_nth in H, H'. rewrite E in H. congruence. Qed.
Lemma nth_place l q k : NoDup l -> nth_error l k = Some q -> k = place l q.
Proof.
  intros Hn E. rewrite NoDup_nth_error in Hn. apply Hn; [apply nth_error_Some; congruence|]. rewrite E. symmetry. apply place_nth. eapply nth_error_In; eauto.
Qed.
Lemma places_map l : NoDup l -> forall qs is, Forall2 (fun q i => nth_error l i = Some q) qs is -> is = map (place l) qs.
Proof. intros Hn qs is H. induction H; cbn; [reflexivity|]. f_equal; [now apply nth_place|assumption]. Qed.

Section QirProofs5.
Variable P : Type.
Variable pnum : P -> bool.
Variable D : Type.
Variable dbl : P -> D.
Lemma numbering c ext t : NoDup (c_qubits P c) -> NoDup (c_bits P c) -> one_register (c_qregs P c) -> one_register (c_cregs P c) ->
  to_qir_calls P pnum D dbl c ext = Ok t ->
  exists qn bn : nat -> nat,
    (forall q q', In q (c_qubits P c) -> In q' (c_qubits P c) -> qn q = qn q' -> q = q') /\
    (forall b b', In b (c_bits P c) -> In b' (c_bits P c) -> bn b = bn b' -> b = b') /\
    exists gates meas a b o, c_ops P c = gates ++ meas /\
      t = [mkMain D (Call D "__quantum__rt__initialize" [] :: a ++ b ++ o) true] /\
      Forall2 (fun op k => exists u, k = Call D u (map (CDouble D) (map dbl (params_of P op)) ++ map (CQubit D) (map qn (qubits_of P op)))) gates a /\
      Forall2 (fun x k => k = Call D "__quantum__qis__mz__body" [CQubit D (qn (fst x)); CResult D (bn (snd x))]) (List.concat (map (measured P) meas)) b /\
      Forall2 (fun x k => k = Call D "__quantum__rt__result_record_output" [CResult D (bn (snd x))]) (List.concat (map (measured P) meas)) o.
Proof.
  intros Nq Nb Oq Ob H. exists (place (c_qubits P c)), (place (c_bits P c)). split; [apply place_inj|]. split; [apply place_inj|].
  destruct (compiled_calls _ _ _ _ _ _ _ H) as (gates & meas & a & b & o & E & _ & _ & -> & Ha & Hb & Ho). exists gates, meas, a, b, o. split; [exact E|]. split; [reflexivity|]. split; [|split].
  - eapply Forall2_map_l; [|exact Ha]. intros op k (f & u & is & _ & _ & -> & Hi). exists u. apply (Forall2_places _ Oq) in Hi. now rewrite (places_map _ Nq _ _ Hi).
  - eapply Forall2_map_l; [|exact Hb]. intros x k (i & j & Hi & Hj & ->). apply (in_place_concat _ _ _ Oq) in Hi. apply (in_place_concat _ _ _ Ob) in Hj.
    now rewrite (nth_place _ _ _ Nq Hi), (nth_place _ _ _ Nb Hj).
  - eapply Forall2_map_l; [|exact Ho]. intros x k (j & Hj & ->). apply (in_place_concat _ _ _ Ob) in Hj. now rewrite (nth_place _ _ _ Nb Hj).
Qed.
Lemma emitted c ext t : to_qir_calls P pnum D dbl c ext = Ok t ->
  exists gates meas a rest, c_ops P c = gates ++ meas /\ Forall (is_measurement P) meas /\
    t = [mkMain D (Call D "__quantum__rt__initialize" [] :: a ++ rest) true] /\
    Forall2 (fun op (k : call D) => let (u, _) := k in
       dget String.eqb u from_qis = Some (o_name P op) \/
       In (o_name P op) extra /\ exists f s, In (o_name P op, f) function_of /\ u = (f ++ "." ++ s)%string) gates a.
Proof.
  intros H. destruct (compiled_calls _ _ _ _ _ _ _ H) as (gates & meas & a & b & o & E & _ & Hm & -> & Ha & _). exists gates, meas, a, (b ++ o). split; [exact E|]. split; [exact Hm|]. split; [reflexivity|].
  eapply Forall2_map_l; [|exact Ha]. intros op k (f & u & is & Hf & Hu & -> & _). destruct Hu as [->|(He & s & ->)]; [left; now apply emitted_read_back|right; eauto].
Qed.
End QirProofs5.

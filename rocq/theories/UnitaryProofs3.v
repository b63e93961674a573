(** The error branches of build_controlled_unitary. *)
From Coq Require Import List ZArith NArith Bool Lia.
From Verif Require Import Py CRing KernelSpec SimModel UnitaryModel UnitarySpec UnitaryProofs.
Import ListNotations.
Local Open Scope Z_scope.

Section U.
Variable K : cring.
Notation mat := (N -> N -> K).

Lemma list_max_spec l : match list_max l with
  | None => l = []
  | Some m => In m l /\ forall x, In x l -> x <= m
  end.
Proof.
  induction l as [|x l IH]; [reflexivity|]. cbn [list_max]. destruct (list_max l) as [m|].
  - destruct IH as [H1 H2]. split.
    + destruct (Z.max_spec x m) as [[_ ->]|[_ ->]]; [now right|now left].
    + intros y [->|Hy]; [lia|]. specialize (H2 y Hy). lia.
  - subst l. split; [now left|]. intros y [->|[]]; lia.
Qed.

Lemma bcu_overlap (control target : list Z) d (u : mat) nq q : In q control -> In q target ->
  build_controlled_unitary K control target d u nq = Err ValueError.
Proof.
  intros Hc Ht. unfold build_controlled_unitary.
  assert (E : existsb (fun c => existsb (Z.eqb c) target) control = true).
  { apply existsb_exists. exists q. split; [exact Hc|]. apply existsb_exists. exists q. split; [exact Ht|apply Z.eqb_refl]. }
  now rewrite E.
Qed.

Lemma bcu_too_large (control target : list Z) d (u : mat) n q : In q (control ++ target) -> n <= q ->
  build_controlled_unitary K control target d u (Some n) = Err ValueError.
Proof.
  intros Hq Hn. unfold build_controlled_unitary.
  destruct (existsb _ control); [reflexivity|].
  pose proof (list_max_spec (control ++ target)) as Hm. destruct (list_max (control ++ target)) as [m|]; [|reflexivity].
  destruct Hm as [_ Hm]. specialize (Hm q Hq). destruct (Z.leb_spec n m); [reflexivity|lia].
Qed.

Lemma disjoint_existsb (control target : list Z) : (forall q, In q control -> In q target -> False) ->
  existsb (fun c => existsb (Z.eqb c) target) control = false.
Proof.
  intros H. apply not_true_is_false. intros E. apply existsb_exists in E. destruct E as (c & Hc & E).
  apply existsb_exists in E. destruct E as (t & Ht & E). apply Z.eqb_eq in E. subst t. eauto.
Qed.

Lemma bcu_targets (control target : list Z) d (u : mat) nq :
  (forall q, In q control -> In q target -> False) -> control ++ target <> [] ->
  (forall n, nq = Some n -> forall q, In q (control ++ target) -> q < n) ->
  length target <> 1%nat ->
  build_controlled_unitary K control target d u nq = Err NotImplementedError.
Proof.
  intros Hd Hne Hlt Hl. unfold build_controlled_unitary. rewrite disjoint_existsb by exact Hd.
  pose proof (list_max_spec (control ++ target)) as Hm. destruct (list_max (control ++ target)) as [m|]; [|contradiction].
  destruct Hm as [Hin _].
  assert (E : match nq with Some n => n <=? m | None => false end = false).
  { destruct nq as [n|]; [|reflexivity]. specialize (Hlt n eq_refl m Hin). apply Z.leb_gt. exact Hlt. }
  rewrite E. destruct (Nat.eqb_spec (length target) 1); [contradiction|reflexivity].
Qed.

(** Without [num_qubits] the number of qubits is one more than the largest index. *)
Theorem bcu_default (cs : list N) t (u : mat) n : NoDup (t :: cs) ->
  In n (t :: cs) -> (forall q, In q (t :: cs) -> (q <= n)%N) ->
  exists M, build_controlled_unitary K (map Z.of_N cs) [Z.of_N t] 2 u None = Ok (Z.of_N (n + 1), M) /\
    forall i j, (i < 2 ^ (n + 1))%N -> (j < 2 ^ (n + 1))%N -> M i j = ctrl_entry (n + 1) cs t u i j.
Proof.
  intros Hnd Hin Hle.
  destruct (bcu_correct K (n + 1) cs t u) as (M & E & HM).
  - intros q Hq. specialize (Hle q Hq). lia.
  - exact Hnd.
  - exists M. split; [|exact HM]. rewrite <- E. unfold build_controlled_unitary.
    destruct (existsb _ _); [reflexivity|].
    pose proof (list_max_spec (map Z.of_N cs ++ [Z.of_N t])) as Hm.
    destruct (list_max (map Z.of_N cs ++ [Z.of_N t])) as [m|]; [|destruct cs; discriminate].
    destruct Hm as [Hm1 Hm2].
    assert (Em : m = Z.of_N n).
    { apply Z.le_antisymm.
      - apply in_app_or in Hm1. destruct Hm1 as [H|[<-|[]]].
        + apply in_map_iff in H. destruct H as (q & <- & Hq). specialize (Hle q (or_intror Hq)). lia.
        + specialize (Hle t (or_introl eq_refl)). lia.
      - apply Hm2. destruct Hin as [->|Hin]; [apply in_or_app; right; now left|].
        apply in_or_app. left. now apply in_map. }
    subst m. replace (Z.of_N (n + 1) <=? Z.of_N n) with false by (symmetry; apply Z.leb_gt; lia).
    replace (Z.of_N (n + 1) =? 0) with false by (symmetry; apply Z.eqb_neq; lia).
    replace (Z.of_N n + 1) with (Z.of_N (n + 1)) by lia. reflexivity.
Qed.
End U.

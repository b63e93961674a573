(** Proofs about build_controlled_unitary: bit lists. *)
From Coq Require Import List ZArith NArith Bool Lia Permutation Sorted.
From Verif Require Import Py CRing KernelSpec KernelBits SimModel UnitaryModel UnitarySpec.
Import ListNotations.
Local Open Scope Z_scope.

(** ** Inserting *)
Definition ins {A} (l : list A) (p : nat) (x : A) : list A := firstn p l ++ x :: skipn p l.
Definition rem {A} (l : list A) (p : nat) : list A := firstn p l ++ skipn (S p) l.

Lemma py_insert_ins {A} (l : list A) z x : 0 <= z -> (Z.to_nat z <= length l)%nat ->
  py_insert l z x = ins l (Z.to_nat z) x.
Proof.
  intros H0 H. unfold py_insert, ins. destruct (Z.ltb_spec z 0); [lia|]. rewrite Z.min_l by lia. reflexivity.
Qed.

Lemma ins_length {A} (l : list A) p x : (p <= length l)%nat -> length (ins l p x) = S (length l).
Proof. intros H. unfold ins. rewrite app_length. simpl. rewrite firstn_length, skipn_length. lia. Qed.

Lemma ins_nth {A} (l : list A) p x d k : (p <= length l)%nat ->
  nth k (ins l p x) d = if Nat.ltb k p then nth k l d else if Nat.eqb k p then x else nth (k - 1) l d.
Proof.
  intros H. unfold ins. assert (Hl : length (firstn p l) = p) by (rewrite firstn_length; lia).
  destruct (Nat.ltb_spec k p).
  - rewrite app_nth1 by lia. rewrite <- (firstn_skipn p l) at 2. rewrite app_nth1 by lia. reflexivity.
  - rewrite app_nth2 by lia. rewrite Hl. destruct (Nat.eqb_spec k p).
    + subst. now rewrite Nat.sub_diag.
    + replace (k - p)%nat with (S (k - 1 - p)) by lia. cbn [nth].
      rewrite <- (firstn_skipn p l) at 2. rewrite app_nth2 by lia. now rewrite Hl.
Qed.

Lemma rem_length {A} (l : list A) p : (p < length l)%nat -> length (rem l p) = (length l - 1)%nat.
Proof. intros H. unfold rem. rewrite app_length, firstn_length, skipn_length. lia. Qed.

Lemma ins_rem {A} (l : list A) p d : (p < length l)%nat -> ins (rem l p) p (nth p l d) = l.
Proof.
  intros H. unfold ins, rem.
  assert (Hl : length (firstn p l) = p) by (rewrite firstn_length; lia).
  rewrite firstn_app, skipn_app, Hl, Nat.sub_diag, firstn_O, app_nil_r.
  rewrite firstn_firstn, Nat.min_id. rewrite (skipn_all2 (firstn p l)) by lia. cbn [app].
  rewrite skipn_O. transitivity (firstn p l ++ skipn p l); [|apply firstn_skipn].
  f_equal. clear Hl. revert p H. induction l as [|a l IH]; intros [|p] H; simpl in *; try lia; [reflexivity|].
  apply IH. lia.
Qed.

Lemma rem_ins {A} (l : list A) p x : (p <= length l)%nat -> rem (ins l p x) p = l.
Proof.
  intros H. unfold ins, rem. assert (Hl : length (firstn p l) = p) by (rewrite firstn_length; lia).
  rewrite firstn_app, skipn_app, Hl, Nat.sub_diag, firstn_O, app_nil_r.
  rewrite firstn_firstn, Nat.min_id. replace (S p - p)%nat with 1%nat by lia.
  rewrite (skipn_all2 (firstn p l)) by lia. simpl. apply firstn_skipn.
Qed.

(** ** Inserting at a strictly increasing list of positions *)
Definition fill (f : nat -> bool) (ps : list nat) (l : list bool) : list bool :=
  fold_left (fun l p => ins l p (f p)) ps l.

Lemma sorted_room ps n : StronglySorted lt ps -> (forall p, In p ps -> (p < n)%nat) ->
  match ps with [] => True | p :: _ => (p + length ps <= n)%nat end.
Proof.
  induction ps as [|p ps IH]; intros Hs Hn; [exact I|].
  inversion Hs as [|? ? Hs' Hf]; subst.
  specialize (IH Hs' (fun q Hq => Hn q (or_intror Hq))).
  destruct ps as [|q ps]; simpl.
  - specialize (Hn p (or_introl eq_refl)). lia.
  - inversion Hf; subst. simpl in IH. lia.
Qed.

Section Fill.
Variable n : nat.

Definition ok (ps : list nat) (l : list bool) : Prop :=
  StronglySorted lt ps /\ (forall p, In p ps -> (p < n)%nat) /\ (length ps + length l = n)%nat.

Lemma ok_cons f p ps l : ok (p :: ps) l -> (p <= length l)%nat /\ ok ps (ins l p (f p)) /\ ok ps (ins l p (f p)).
Proof.
  intros (Hs & Hn & Hl). pose proof (sorted_room _ n Hs Hn) as H. simpl in H, Hl.
  assert (p <= length l)%nat by lia. split; [auto|].
  assert (ok ps (ins l p (f p))).
  { inversion Hs; subst. repeat split; auto.
    - intros q Hq. apply Hn. now right.
    - rewrite ins_length by auto. lia. }
  auto.
Qed.

Lemma fill_length f ps : forall l, ok ps l -> length (fill f ps l) = n.
Proof.
  induction ps as [|p ps IH]; intros l H.
  - destruct H as (_ & _ & H). exact H.
  - destruct (ok_cons f p ps l H) as (_ & H' & _). apply IH, H'.
Qed.

Lemma fill_below f ps : forall l k, ok ps l -> (forall p, In p ps -> (k < p)%nat) ->
  nth k (fill f ps l) false = nth k l false.
Proof.
  induction ps as [|p ps IH]; intros l k H Hk; [reflexivity|].
  destruct (ok_cons f p ps l H) as (Hp & H' & _). cbn [fill fold_left].
  change (nth k (fill f ps (ins l p (f p))) false = nth k l false).
  rewrite IH by (auto; intros q Hq; apply Hk; now right).
  rewrite ins_nth by auto. specialize (Hk p (or_introl eq_refl)).
  destruct (Nat.ltb_spec k p); [reflexivity|lia].
Qed.

Lemma fill_at f ps : forall l p, ok ps l -> In p ps -> nth p (fill f ps l) false = f p.
Proof.
  induction ps as [|q ps IH]; intros l p H Hp; [destruct Hp|].
  destruct (ok_cons f q ps l H) as (Hq & H' & _).
  change (nth p (fill f ps (ins l q (f q))) false = f p).
  destruct Hp as [->|Hp]; [|now apply IH].
  destruct H as (Hs & _). inversion Hs as [|? ? _ Hf]; subst. rewrite Forall_forall in Hf.
  rewrite fill_below by auto. rewrite ins_nth by auto.
  rewrite (proj2 (Nat.ltb_ge p p)) by lia. now rewrite Nat.eqb_refl.
Qed.

Lemma fill_inj f g ps : forall l m, ok ps l -> ok ps m -> fill f ps l = fill g ps m -> l = m.
Proof.
  induction ps as [|p ps IH]; intros l m H H2 E; [exact E|].
  destruct (ok_cons f p ps l H) as (Hp & H' & _). destruct (ok_cons g p ps m H2) as (Hp2 & H2' & _).
  specialize (IH _ _ H' H2' E). rewrite <- (rem_ins l p (f p) Hp). rewrite IH. now apply rem_ins.
Qed.

Lemma fill_surj f ps : forall r, StronglySorted lt ps -> (forall p, In p ps -> (p < n)%nat) ->
  length r = n -> (forall p, In p ps -> nth p r false = f p) -> exists l, ok ps l /\ fill f ps l = r.
Proof.
  induction ps as [|p ps IH]; intros r Hs Hn Hr Hf.
  { exists r. repeat split; auto. }
  pose proof (sorted_room _ n Hs Hn) as Hroom. simpl in Hroom.
  inversion Hs as [|? ? Hs' Hall]; subst. rewrite Forall_forall in Hall.
  destruct (IH r Hs' (fun q Hq => Hn q (or_intror Hq)) Hr (fun q Hq => Hf q (or_intror Hq)))
    as (l' & Hok & E).
  assert (Hlen : (length ps + length l' = n)%nat) by apply Hok.
  assert (Hp : (p < length l')%nat) by lia.
  exists (rem l' p). split.
  - split; [exact Hs|]. split; [exact Hn|]. rewrite rem_length by auto. simpl. lia.
  - change (fill f ps (ins (rem l' p) p (f p)) = r).
    rewrite <- (Hf p (or_introl eq_refl)). rewrite <- E at 1.
    rewrite fill_below by auto. rewrite ins_rem by auto. exact E.
Qed.
End Fill.

(** ** Bit lists as numbers *)
Lemma int_app l b : int_of_bits (l ++ [b]) = (2 * int_of_bits l + N.b2n b)%N.
Proof. unfold int_of_bits. now rewrite fold_left_app. Qed.

Lemma int_testbit l : forall k, (k < length l)%nat ->
  N.testbit (int_of_bits l) (N.of_nat (length l - 1 - k)) = nth k l false.
Proof.
  induction l as [|b l IH] using rev_ind; intros k Hk; [simpl in Hk; lia|].
  rewrite app_length in *. simpl in Hk. rewrite int_app. simpl length.
  destruct (Nat.eq_dec k (length l)) as [->|Hne].
  - rewrite app_nth2, Nat.sub_diag by lia. simpl nth.
    replace (length l + 1 - 1 - length l)%nat with 0%nat by lia. simpl N.of_nat.
    rewrite N.testbit_0_r. reflexivity.
  - rewrite app_nth1 by lia.
    replace (N.of_nat (length l + 1 - 1 - k)) with (N.succ (N.of_nat (length l - 1 - k))) by lia.
    rewrite N.testbit_succ_r. apply IH. lia.
Qed.

Lemma int_lt l : (int_of_bits l < 2 ^ N.of_nat (length l))%N.
Proof.
  induction l as [|b l IH] using rev_ind; [reflexivity|].
  rewrite int_app, app_length. cbn [length]. replace (N.of_nat (length l + 1)) with (N.succ (N.of_nat (length l))) by lia.
  rewrite N.pow_succ_r'. destruct b; cbn [N.b2n]; lia.
Qed.

Definition bits_of (n : nat) (i : N) : list bool := map (fun k => N.testbit i (N.of_nat (n - 1 - k))) (seq 0 n).

Lemma bits_of_length n i : length (bits_of n i) = n.
Proof. unfold bits_of. now rewrite map_length, seq_length. Qed.

Lemma bits_of_nth n i k : (k < n)%nat -> nth k (bits_of n i) false = N.testbit i (N.of_nat (n - 1 - k)).
Proof.
  intros H. unfold bits_of.
  rewrite (nth_indep _ false (N.testbit i (N.of_nat (n - 1 - n)))) by (rewrite map_length, seq_length; auto).
  rewrite (map_nth (fun k => N.testbit i (N.of_nat (n - 1 - k))) (seq 0 n) n k).
  now rewrite seq_nth.
Qed.

Lemma int_bits_of n i : (i < 2 ^ N.of_nat n)%N -> int_of_bits (bits_of n i) = i.
Proof.
  intros H. apply N.bits_inj. intros p.
  destruct (N.lt_ge_cases p (N.of_nat n)) as [Hp|Hp].
  - assert (Hk : (n - 1 - N.to_nat p < n)%nat) by lia.
    pose proof (int_testbit (bits_of n i) (n - 1 - N.to_nat p)) as E.
    rewrite bits_of_length in E. specialize (E Hk). rewrite bits_of_nth in E by auto.
    replace (N.of_nat (n - 1 - (n - 1 - N.to_nat p))) with p in E by lia. exact E.
  - rewrite (lt_testbit (N.of_nat n) i p) by auto. apply (lt_testbit (N.of_nat n)); [|auto].
    pose proof (int_lt (bits_of n i)) as Hl. now rewrite bits_of_length in Hl.
Qed.

Lemma int_inj l m : length l = length m -> int_of_bits l = int_of_bits m -> l = m.
Proof.
  intros Hl E. apply (nth_ext _ _ false false Hl). intros k Hk.
  rewrite <- int_testbit by auto. rewrite E, Hl. apply int_testbit. lia.
Qed.

Lemma int_qbit l k : (k < length l)%nat ->
  qbit false (N.of_nat (length l)) (int_of_bits l) (N.of_nat k) = nth k l false.
Proof.
  intros H. unfold qbit, bitpos. rewrite <- int_testbit by auto. f_equal. lia.
Qed.

Lemma bitstrings_spec k : forall l, In l (bitstrings k) <-> length l = k.
Proof.
  induction k as [|k IH]; intros l; simpl.
  - split; [intros [<-|[]]; reflexivity|]. destruct l; [auto|discriminate].
  - rewrite in_app_iff, !in_map_iff. split.
    + intros [(x & <- & Hx)|(x & <- & Hx)]; simpl; f_equal; now apply IH.
    + destruct l as [|b l]; [discriminate|]. intros H. apply Nat.succ_inj in H. apply IH in H.
      destruct b; [right|left]; now exists l.
Qed.

Lemma bitstrings_NoDup k : NoDup (bitstrings k).
Proof.
  induction k as [|k IH]; simpl; [constructor; [intros []|constructor]|].
  assert (Hm : forall b, NoDup (map (cons b) (bitstrings k))).
  { intros b. apply FinFun.Injective_map_NoDup; [|exact IH]. intros x y H. congruence. }
  specialize (Hm) as Hm'. clear IH. revert Hm'.
  assert (Hd : forall x, In x (map (cons false) (bitstrings k)) -> In x (map (cons true) (bitstrings k)) -> False).
  { intros x H1 H2. apply in_map_iff in H1. apply in_map_iff in H2.
    destruct H1 as (a & <- & _), H2 as (c & E & _). discriminate. }
  intros _. specialize (Hm false) as H1. specialize (Hm true) as H2.
  induction (map (cons false) (bitstrings k)) as [|x l IHl]; [exact H2|].
  inversion H1; subst. simpl. constructor.
  - rewrite in_app_iff. intros [?|Hx]; [contradiction|]. apply (Hd x); [now left|exact Hx].
  - apply IHl; auto. intros y Hy. apply Hd. now right.
Qed.

(** ** Sorting the pairs *)
Definition zlt (a b : Z * bool) : Prop := fst a < fst b.

Lemma insert_pair_perm a l : Permutation (insert_pair a l) (a :: l).
Proof.
  induction l as [|b l IH]; simpl; [auto|]. destruct (pair_leb a b); [auto|].
  rewrite IH. apply perm_swap.
Qed.

Lemma sort_pairs_perm l : Permutation (sort_pairs l) l.
Proof. induction l as [|a l IH]; simpl; [auto|]. now rewrite insert_pair_perm, IH. Qed.

Lemma insert_pair_sorted a l : StronglySorted zlt l -> ~ In (fst a) (map fst l) ->
  StronglySorted zlt (insert_pair a l).
Proof.
  induction l as [|b l IH]; intros Hs Ha; simpl.
  - repeat constructor.
  - inversion Hs as [|? ? Hs' Hf]; subst. unfold pair_leb.
    destruct (Z.ltb_spec (fst a) (fst b)) as [Hlt|Hge]; simpl.
    + constructor; [exact Hs|]. constructor; [exact Hlt|].
      rewrite Forall_forall in *. intros x Hx. specialize (Hf x Hx). unfold zlt in *. lia.
    + destruct (Z.eqb_spec (fst a) (fst b)) as [He|He]; simpl.
      { exfalso. apply Ha. left. auto. }
      constructor.
      * apply IH; [exact Hs'|]. intros Hin. apply Ha. now right.
      * rewrite Forall_forall in *. intros x Hx. apply (Permutation_in _ (insert_pair_perm a l)) in Hx.
        destruct Hx as [<-|Hx]; [unfold zlt; lia|auto].
Qed.

Lemma sort_pairs_sorted l : NoDup (map fst l) -> StronglySorted zlt (sort_pairs l).
Proof.
  induction l as [|a l IH]; intros Hn; simpl; [constructor|].
  inversion Hn; subst. apply insert_pair_sorted; [auto|].
  intros Hin. apply in_map_iff in Hin. destruct Hin as (x & E & Hx).
  apply (Permutation_in _ (sort_pairs_perm l)) in Hx. apply H1. rewrite <- E. now apply in_map.
Qed.

(** ** The matrix *)
Section BCU.
Variable K : cring.
Add Ring KringU : (r_theory K).
Notation mat := (N -> N -> K).

Lemma fold_rows (u : mat) (f0 f1 : list bool -> N) (step : mat -> list bool -> mat) :
  (forall s b, step s b = set_rows K u (f0 b) (f1 b) s) ->
  forall L, NoDup L ->
  (forall b c, In b L -> In c L -> f0 b = f0 c -> b = c) ->
  (forall b c, In b L -> In c L -> f1 b = f1 c -> b = c) ->
  (forall b c, In b L -> In c L -> f0 b <> f1 c) ->
  forall s j,
  (forall b, In b L ->
     fold_left step L s (f0 b) j = radd (rmul (u 0 0)%N (s (f0 b) j)) (rmul (u 0 1)%N (s (f1 b) j)) /\
     fold_left step L s (f1 b) j = radd (rmul (u 1 0)%N (s (f0 b) j)) (rmul (u 1 1)%N (s (f1 b) j))) /\
  (forall i, (forall b, In b L -> i <> f0 b /\ i <> f1 b) -> fold_left step L s i j = s i j).
Proof.
  intros Hstep. induction L as [|b L IH]; intros Hnd H0 H1 H01 s j; [split; [intros b []|reflexivity]|].
  inversion Hnd as [|? ? Hb Hnd']; subst.
  assert (IH' := IH Hnd' (fun x y Hx Hy => H0 x y (or_intror Hx) (or_intror Hy))
                    (fun x y Hx Hy => H1 x y (or_intror Hx) (or_intror Hy))
                    (fun x y Hx Hy => H01 x y (or_intror Hx) (or_intror Hy)) (step s b) j).
  destruct IH' as [IHa IHb]. cbn [fold_left].
  assert (Hrow : forall i, step s b i j =
     if (i =? f1 b)%N then radd (rmul (u 1 0)%N (s (f0 b) j)) (rmul (u 1 1)%N (s (f1 b) j))
     else if (i =? f0 b)%N then radd (rmul (u 0 0)%N (s (f0 b) j)) (rmul (u 0 1)%N (s (f1 b) j)) else s i j).
  { intros i. rewrite Hstep. reflexivity. }
  assert (Hin : In b (b :: L)) by now left.
  split.
  - intros c [<-|Hc].
    + assert (Hout0 : forall c, In c L -> f0 b <> f0 c /\ f0 b <> f1 c).
      { intros c Hc. assert (In c (b :: L)) by now right. split; [|now apply H01].
        intros E. apply H0 in E; auto. congruence. }
      assert (Hout1 : forall c, In c L -> f1 b <> f0 c /\ f1 b <> f1 c).
      { intros c Hc. assert (In c (b :: L)) by now right. split.
        - intros E. symmetry in E. revert E. now apply H01.
        - intros E. apply H1 in E; auto. congruence. }
      rewrite (IHb _ Hout0), (IHb _ Hout1), !Hrow. rewrite !N.eqb_refl.
      destruct (N.eqb_spec (f0 b) (f1 b)) as [E|_]; [exfalso; revert E; now apply H01|]. auto.
    + destruct (IHa c Hc) as [E0 E1]. rewrite E0, E1. assert (Hc' : In c (b :: L)) by now right.
      assert (A : step s b (f0 c) j = s (f0 c) j).
      { rewrite Hrow. destruct (N.eqb_spec (f0 c) (f1 b)) as [E|_]; [exfalso; revert E; now apply H01|].
        destruct (N.eqb_spec (f0 c) (f0 b)) as [E|_]; [|reflexivity]. apply H0 in E; auto. congruence. }
      assert (B : step s b (f1 c) j = s (f1 c) j).
      { rewrite Hrow. destruct (N.eqb_spec (f1 c) (f1 b)) as [E|_]; [apply H1 in E; auto; congruence|].
        destruct (N.eqb_spec (f1 c) (f0 b)) as [E|_]; [|reflexivity]. exfalso. symmetry in E. revert E. now apply H01. }
      rewrite A, B. auto.
  - intros i Hi. rewrite IHb by (intros c Hc; apply Hi; now right). rewrite Hrow.
    destruct (Hi b Hin) as [Hi0 Hi1].
    destruct (N.eqb_spec i (f1 b)); [contradiction|]. destruct (N.eqb_spec i (f0 b)); [contradiction|]. reflexivity.
Qed.

Variables (n : N) (cs : list N) (t : N) (u : mat).
Hypothesis Hlt : forall q, In q (t :: cs) -> (q < n)%N.
Hypothesis Hnd : NoDup (t :: cs).

Let pairs := sort_pairs (map (fun c => (c, true)) (map Z.of_N cs) ++ map (fun t => (t, false)) [Z.of_N t]).
Let ps := map (fun p => Z.to_nat (fst p)) pairs.
Let nn := N.to_nat n.

Lemma pairs_In p : In p pairs <-> (exists c, In c cs /\ p = (Z.of_N c, true)) \/ p = (Z.of_N t, false).
Proof.
  unfold pairs. split.
  - intros H. apply (Permutation_in _ (sort_pairs_perm _)) in H. apply in_app_iff in H.
    destruct H as [H|[<-|[]]]; [left|now right]. rewrite map_map in H. apply in_map_iff in H.
    destruct H as (c & <- & Hc). eauto.
  - intros H. apply (Permutation_in _ (Permutation_sym (sort_pairs_perm _))). apply in_app_iff.
    destruct H as [(c & Hc & ->)| ->]; [left|right; now left]. rewrite map_map. apply in_map_iff. eauto.
Qed.

Lemma pairs_sorted : StronglySorted zlt pairs.
Proof.
  apply sort_pairs_sorted. rewrite map_app, !map_map. cbn [map fst].
  inversion Hnd as [|? ? Ht Hc]; subst.
  apply (Permutation_NoDup (l := Z.of_N t :: map Z.of_N cs)).
  - apply Permutation_cons_append.
  - change (NoDup (map Z.of_N (t :: cs))). apply FinFun.Injective_map_NoDup; [|exact Hnd].
    intros a b. apply N2Z.inj.
Qed.

Lemma ps_sorted : StronglySorted lt ps.
Proof.
  unfold ps. assert (Hpos : forall p, In p pairs -> 0 <= fst p).
  { intros p Hp. apply pairs_In in Hp. destruct Hp as [(c & _ & ->)| ->]; simpl; lia. }
  pose proof pairs_sorted as Hs. revert Hs Hpos. generalize pairs. intros l.
  induction l as [|a l IH]; intros Hs Hpos; simpl; [constructor|]. inversion Hs as [|? ? Hs' Hf]; subst.
  constructor; [apply IH; auto; intros p Hp; apply Hpos; now right|].
  rewrite Forall_forall in *. intros x Hx. apply in_map_iff in Hx. destruct Hx as (p & <- & Hp).
  specialize (Hf p Hp). unfold zlt in Hf. pose proof (Hpos a (or_introl eq_refl)). lia.
Qed.

Lemma ps_In k : In k ps <-> In (N.of_nat k) (t :: cs).
Proof.
  unfold ps. rewrite in_map_iff. split.
  - intros (p & <- & Hp). apply pairs_In in Hp. destruct Hp as [(c & Hc & ->)| ->]; simpl fst.
    + right. replace (N.of_nat (Z.to_nat (Z.of_N c))) with c by lia. auto.
    + left. lia.
  - intros [H|H].
    + exists (Z.of_N t, false). simpl fst. split; [lia|]. apply pairs_In. now right.
    + exists (Z.of_N (N.of_nat k), true). simpl fst. split; [lia|]. apply pairs_In. left. eauto.
Qed.

Lemma ps_lt k : In k ps -> (k < nn)%nat.
Proof. intros H. apply ps_In in H. apply Hlt in H. unfold nn. lia. Qed.

Lemma ps_length : length ps = S (length cs).
Proof.
  unfold ps. rewrite map_length. unfold pairs. rewrite (Permutation_length (sort_pairs_perm _)).
  rewrite app_length, !map_length. simpl. lia.
Qed.

Lemma room : (S (length cs) <= nn)%nat.
Proof.
  rewrite <- ps_length. pose proof (sorted_room ps nn ps_sorted ps_lt) as H.
  destruct ps as [|p l]; [simpl; lia|]. lia.
Qed.

Definition fval (b : bool) (k : nat) : bool := if Nat.eqb k (N.to_nat t) then b else true.

Let rep := (nn - S (length cs))%nat.

Lemma ok_bits l : In l (bitstrings rep) -> ok nn ps l.
Proof.
  intros H. apply bitstrings_spec in H. repeat split; [apply ps_sorted|apply ps_lt|].
  rewrite ps_length, H. unfold rep. pose proof room. lia.
Qed.

Lemma fold_fill (g : Z * bool -> bool) (f : nat -> bool) :
  (forall p, In p pairs -> g p = f (Z.to_nat (fst p))) ->
  forall l, ok nn ps l -> fold_left (fun l p => py_insert l (fst p) (g p)) pairs l = fill f ps l.
Proof.
  unfold ps. assert (Hpos : forall p, In p pairs -> 0 <= fst p).
  { intros p Hp. apply pairs_In in Hp. destruct Hp as [(c & _ & ->)| ->]; simpl; lia. }
  revert Hpos. generalize pairs. intros q Hpos Hg. clear -Hpos Hg. revert Hpos Hg.
  induction q as [|p q IH]; intros Hpos Hg l Hok; [reflexivity|].
  cbn [map fold_left fill] in *. destruct (ok_cons nn f _ _ l Hok) as (Hp & Hok' & _).
  rewrite py_insert_ins by (auto; apply Hpos; now left). rewrite Hg by now left.
  apply IH; [intros x Hx; apply Hpos; now right|intros x Hx; apply Hg; now right|exact Hok'].
Qed.

Definition row (b : bool) (l : list bool) : N := int_of_bits (fill (fval b) ps l).

Lemma step_rows s l : In l (bitstrings rep) ->
  bcu_step K u (map Z.of_N cs) [Z.of_N t] s l = set_rows K u (row false l) (row true l) s.
Proof.
  intros Hl. apply ok_bits in Hl. unfold bcu_step, row. fold pairs.
  rewrite (fold_fill snd (fval false)); [|intros p Hp|exact Hl].
  2:{ apply pairs_In in Hp. unfold fval. destruct Hp as [(c & Hc & ->)| ->]; simpl fst; simpl snd.
      - destruct (Nat.eqb_spec (Z.to_nat (Z.of_N c)) (N.to_nat t)); [|reflexivity].
        inversion Hnd. subst. exfalso. assert (c = t) by lia. congruence.
      - destruct (Nat.eqb_spec (Z.to_nat (Z.of_N t)) (N.to_nat t)); [reflexivity|lia]. }
  rewrite (fold_fill (fun _ => true) (fval true)); [reflexivity|intros p _|exact Hl].
  unfold fval. now destruct (Nat.eqb _ _).
Qed.

Lemma row_lt b l : In l (bitstrings rep) -> (row b l < 2 ^ n)%N.
Proof.
  intros Hl. pose proof (int_lt (fill (fval b) ps l)) as H.
  rewrite (fill_length nn) in H by now apply ok_bits. unfold nn in H. now rewrite N2Nat.id in H.
Qed.

Lemma row_qbit b l q : In l (bitstrings rep) -> In q (t :: cs) -> qbit false n (row b l) q = fval b (N.to_nat q).
Proof.
  intros Hl Hq. pose proof (int_qbit (fill (fval b) ps l) (N.to_nat q)) as H.
  rewrite (fill_length nn) in H by now apply ok_bits. unfold nn in H. rewrite !N2Nat.id in H.
  unfold row. rewrite H by (apply Hlt in Hq; lia).
  apply (fill_at nn); [now apply ok_bits|]. apply ps_In. now rewrite N2Nat.id.
Qed.

Lemma row_inj b c l m : In l (bitstrings rep) -> In m (bitstrings rep) -> row b l = row c m -> l = m.
Proof.
  intros Hl Hm E. apply int_inj in E; [|rewrite !(fill_length nn); auto using ok_bits].
  eapply (fill_inj nn); eauto using ok_bits.
Qed.

Lemma row_cover i : (i < 2 ^ n)%N -> forallb (qbit false n i) cs = true ->
  exists l, In l (bitstrings rep) /\ i = row (qbit false n i t) l.
Proof.
  intros Hi Hc. rewrite forallb_forall in Hc.
  destruct (fill_surj nn (fval (qbit false n i t)) ps (bits_of nn i)) as (l & Hok & E).
  - apply ps_sorted.
  - apply ps_lt.
  - apply bits_of_length.
  - intros k Hk. rewrite bits_of_nth by now apply ps_lt. apply ps_In in Hk. unfold fval.
    assert (Hb : N.testbit i (N.of_nat (nn - 1 - k)) = qbit false n i (N.of_nat k)).
    { unfold qbit, bitpos. f_equal. unfold nn. lia. }
    rewrite Hb. destruct (Nat.eqb_spec k (N.to_nat t)) as [->|Hne].
    + now rewrite N2Nat.id.
    + destruct Hk as [Hk|Hk]; [exfalso; apply Hne; rewrite Hk; now rewrite Nat2N.id|]. now apply Hc.
  - exists l. split.
    + apply bitstrings_spec. destruct Hok as (_ & _ & H). rewrite ps_length in H. unfold rep. lia.
    + unfold row. rewrite E. symmetry. apply int_bits_of. unfold nn. now rewrite N2Nat.id.
Qed.

Lemma row_swap l b : In l (bitstrings rep) -> qset false n (row (negb b) l) t b = row b l.
Proof.
  intros Hl.
  assert (Hrow : (row b l < 2 ^ n)%N) by now apply row_lt.
  assert (Hc : forallb (qbit false n (row b l)) cs = true).
  { apply forallb_forall. intros q Hq. rewrite row_qbit by (auto; now right). unfold fval.
    destruct (Nat.eqb_spec (N.to_nat q) (N.to_nat t)); [|reflexivity].
    inversion Hnd; subst. exfalso. assert (q = t) by lia. congruence. }
  (* both lists agree outside the target position *)
  assert (Hfill : forall k, (k < nn)%nat -> k <> N.to_nat t ->
     nth k (fill (fval (negb b)) ps l) false = nth k (fill (fval b) ps l) false).
  { intros k Hk Hne.
    assert (G : forall q m m', StronglySorted lt q -> (forall p, In p q -> (p < nn)%nat) ->
       (length q + length m = nn)%nat -> length m = length m' ->
       (forall j, j <> N.to_nat t -> nth j m false = nth j m' false) ->
       forall j, j <> N.to_nat t -> (forall p, In p q -> (N.to_nat t < p)%nat) ->
       nth j (fill (fval (negb b)) q m) false = nth j (fill (fval b) q m') false).
    { clear. induction q as [|p q IH]; intros m m' Hs Hn Hlen Hmm Hag j Hj Ht; [now apply Hag|].
      assert (Hok : ok nn (p :: q) m) by (repeat split; auto).
      destruct (ok_cons nn (fval b) p q m Hok) as (Hp & _ & _).
      inversion Hs as [|? ? Hs' Hf]; subst. cbn [fill fold_left].
      apply IH; auto.
      - intros x Hx. apply Hn. now right.
      - rewrite ins_length by auto. simpl in Hlen. lia.
      - rewrite !ins_length by lia. lia.
      - intros k Hk. rewrite !ins_nth by lia. unfold fval. pose proof (Ht p (or_introl eq_refl)).
        destruct (Nat.ltb_spec k p); [now apply Hag|].
        destruct (Nat.eqb_spec k p); [subst; destruct (Nat.eqb_spec p (N.to_nat t)); [lia|reflexivity]|].
        apply Hag. lia.
      - intros x Hx. apply Ht. now right. }
    assert (F : forall q m, ok nn q m -> nth k (fill (fval (negb b)) q m) false = nth k (fill (fval b) q m) false).
    { clear -G Hne. induction q as [|p q IH]; intros m Hok; [reflexivity|].
      destruct (ok_cons nn (fval (negb b)) p q m Hok) as (Hp & Hok' & _).
      destruct (Nat.eq_dec p (N.to_nat t)) as [E|E].
      - destruct Hok' as (Hs' & Hn' & Hlen'). destruct Hok as (Hs & _). inversion Hs as [|? ? _ Hf]; subst p.
        rewrite Forall_forall in Hf. cbn [fill fold_left].
        apply G; auto.
        + now rewrite !ins_length by auto.
        + intros j Hj. rewrite !ins_nth by auto. destruct (Nat.ltb_spec j (N.to_nat t)); [reflexivity|].
          destruct (Nat.eqb_spec j (N.to_nat t)); [congruence|reflexivity].
      - cbn [fill fold_left].
        assert (Ef : fval (negb b) p = fval b p) by (unfold fval; destruct (Nat.eqb_spec p (N.to_nat t)); congruence).
        rewrite <- Ef. apply IH, Hok'. }
    apply F. now apply ok_bits. }
  apply N.bits_inj. intros p.
  assert (Hqs : N.testbit (qset false n (row (negb b) l) t b) p
                = if (p =? bitpos false n t)%N then b else N.testbit (row (negb b) l) p).
  { unfold qset. destruct b.
    - rewrite N.setbit_eqb. rewrite N.eqb_sym. destruct (p =? bitpos false n t)%N; reflexivity.
    - rewrite N.clearbit_eqb. rewrite N.eqb_sym. destruct (p =? bitpos false n t)%N; simpl;
        [now rewrite andb_false_r|now rewrite andb_true_r]. }
  rewrite Hqs. assert (Htn : (t < n)%N) by (apply Hlt; now left).
  clear Hqs. destruct (N.eqb_spec p (bitpos false n t)) as [Ep|Hp].
  - rewrite Ep. assert (H := row_qbit b l t Hl (or_introl eq_refl)). unfold qbit in H. rewrite H. unfold fval.
    now rewrite Nat.eqb_refl.
  - destruct (N.lt_ge_cases p n) as [Hpn|Hpn].
    + pose proof (int_testbit (fill (fval (negb b)) ps l) (nn - 1 - N.to_nat p)) as E1.
      pose proof (int_testbit (fill (fval b) ps l) (nn - 1 - N.to_nat p)) as E2.
      rewrite (fill_length nn) in E1, E2 by now apply ok_bits.
      assert (Hk : (nn - 1 - N.to_nat p < nn)%nat) by (unfold nn; lia).
      specialize (E1 Hk). specialize (E2 Hk).
      replace (N.of_nat (nn - 1 - (nn - 1 - N.to_nat p))) with p in E1, E2 by (unfold nn; lia).
      unfold row. rewrite E1, E2. apply Hfill; [exact Hk|].
      unfold bitpos in Hp. unfold nn. lia.
    + rewrite !(lt_testbit n) by (auto using row_lt). reflexivity.
Qed.

Theorem bcu_correct :
  exists M, build_controlled_unitary K (map Z.of_N cs) [Z.of_N t] 2 u (Some (Z.of_N n)) = Ok (Z.of_N n, M) /\
    forall i j, (i < 2 ^ n)%N -> (j < 2 ^ n)%N -> M i j = ctrl_entry n cs t u i j.
Proof.
  assert (Htn : (t < n)%N) by (apply Hlt; now left).
  exists (fold_left (bcu_step K u (map Z.of_N cs) [Z.of_N t]) (bitstrings rep) (eye K)).
  split.
  - unfold build_controlled_unitary.
    assert (E1 : existsb (fun c => existsb (Z.eqb c) [Z.of_N t]) (map Z.of_N cs) = false).
    { destruct (existsb _ _) eqn:E; [|reflexivity]. apply existsb_exists in E. destruct E as (z & Hz & E).
      apply in_map_iff in Hz. destruct Hz as (c & <- & Hc). simpl in E. rewrite orb_false_r in E.
      apply Z.eqb_eq in E. apply N2Z.inj in E. subst. inversion Hnd; subst. contradiction. }
    rewrite E1.
    assert (Hm : forall l, (forall z, In z l -> z < Z.of_N n) -> l <> [] -> exists m, list_max l = Some m /\ m < Z.of_N n).
    { clear. induction l as [|z l IH]; intros H Hne; [congruence|]. simpl.
      destruct l as [|y l].
      - exists z. split; [reflexivity|]. apply H. now left.
      - destruct IH as (m & E & Hm); [intros x Hx; apply H; now right|discriminate|]. rewrite E.
        exists (Z.max z m). split; [reflexivity|]. specialize (H z (or_introl eq_refl)). lia. }
    destruct (Hm (map Z.of_N cs ++ [Z.of_N t])) as (mx & Emx & Hmx).
    { intros z Hz. apply in_app_iff in Hz. destruct Hz as [Hz|[<-|[]]]; [|lia].
      apply in_map_iff in Hz. destruct Hz as (c & <- & Hc). assert (c < n)%N by (apply Hlt; now right). lia. }
    { intros E. destruct (map Z.of_N cs); discriminate. }
    rewrite Emx. destruct (Z.leb_spec (Z.of_N n) mx); [lia|]. cbn [length Nat.eqb negb].
    destruct (Z.eqb_spec (Z.of_N n) 0); [lia|]. destruct (Z.ltb_spec (Z.of_N n) 0); [lia|].
    rewrite map_length. pose proof room as Hr. unfold nn in Hr.
    match goal with |- context [?a <? 0] => destruct (Z.ltb_spec a 0) end; [lia|].
    change (2 =? 2)%N with true. cbn [negb].
    f_equal. f_equal. f_equal. f_equal. unfold rep, nn. lia.
  - intros i j Hi Hj.
    set (step' := fun s l => set_rows K u (row false l) (row true l) s).
    assert (Efold : forall L s, incl L (bitstrings rep) ->
       fold_left (bcu_step K u (map Z.of_N cs) [Z.of_N t]) L s = fold_left step' L s).
    { induction L as [|l L IH]; intros s HL; [reflexivity|]. cbn [fold_left].
      rewrite step_rows by (apply HL; now left). apply IH. intros x Hx. apply HL. now right. }
    rewrite Efold by (intros x Hx; exact Hx).
    destruct (fold_rows u (row false) (row true) step' (fun s b => eq_refl) (bitstrings rep) (bitstrings_NoDup rep))
      with (s := eye K) (j := j) as [Hin Hout].
    { intros b c Hb Hc. now apply row_inj. }
    { intros b c Hb Hc. now apply row_inj. }
    { intros b c Hb Hc E. pose proof (row_qbit false b t Hb (or_introl eq_refl)) as A.
      pose proof (row_qbit true c t Hc (or_introl eq_refl)) as B. rewrite <- E, A in B. unfold fval in B.
      rewrite Nat.eqb_refl in B. discriminate. }
    unfold ctrl_entry.
    destruct (forallb (qbit false n i) cs) eqn:Ec.
    + destruct (row_cover i Hi Ec) as (l & Hl & Ei).
      assert (Hjj : forall b, (qset false n i t false =? qset false n j t false)%N = true ->
                  qbit false n j t = b -> j = row b l).
      { intros b E Hb. apply N.eqb_eq in E.
        assert (Hi0 : qset false n i t false = row false l).
        { rewrite Ei. destruct (qbit false n i t).
          - apply (row_swap l false Hl).
          - apply N.bits_inj. intros p. unfold qset.
            rewrite N.clearbit_eqb. destruct (N.eqb_spec (bitpos false n t) p) as [<-|]; cbn [negb];
              [rewrite andb_false_r|now rewrite andb_true_r].
            pose proof (row_qbit false l t Hl (or_introl eq_refl)) as A. unfold qbit in A. rewrite A. unfold fval.
            now rewrite Nat.eqb_refl. }
        destruct b.
        - rewrite <- (row_swap l true Hl). cbn [negb]. rewrite <- Hi0, E. unfold qset.
          apply N.bits_inj. intros p. rewrite N.setbit_eqb, N.clearbit_eqb.
          destruct (N.eqb_spec (bitpos false n t) p) as [Ep|]; cbn [negb orb];
            [rewrite <- Ep; exact Hb|now rewrite andb_true_r].
        - rewrite <- Hi0, E. unfold qset. apply N.bits_inj. intros p. rewrite N.clearbit_eqb.
          destruct (N.eqb_spec (bitpos false n t) p) as [Ep|]; cbn [negb];
            [rewrite andb_false_r, <- Ep; exact Hb|now rewrite andb_true_r]. }
      assert (Hrows : row false l <> row true l).
      { intros E. pose proof (row_qbit false l t Hl (or_introl eq_refl)) as A.
        pose proof (row_qbit true l t Hl (or_introl eq_refl)) as B. rewrite <- E, A in B. unfold fval in B.
        rewrite Nat.eqb_refl in B. discriminate. }
      assert (Hq : forall b, j = row b l -> (qset false n i t false =? qset false n j t false)%N = true /\ qbit false n j t = b).
      { intros b ->. split.
        - apply N.eqb_eq.
          assert (Hz : forall c, qset false n (row c l) t false = row false l).
          { intros [|]; [apply (row_swap l false Hl)|]. apply N.bits_inj. intros p. unfold qset.
            rewrite N.clearbit_eqb. destruct (N.eqb_spec (bitpos false n t) p) as [<-|]; cbn [negb];
              [rewrite andb_false_r|now rewrite andb_true_r].
            pose proof (row_qbit false l t Hl (or_introl eq_refl)) as A. unfold qbit in A. rewrite A. unfold fval.
            now rewrite Nat.eqb_refl. }
          rewrite Ei, !Hz. reflexivity.
        - rewrite (row_qbit b l t Hl (or_introl eq_refl)). unfold fval. now rewrite Nat.eqb_refl. }
      destruct (Hin l Hl) as [E0 E1]. unfold eye in E0, E1.
      assert (Eentry : fold_left step' (bitstrings rep) (eye K) i j
         = radd (rmul (u (N.b2n (qbit false n i t)) 0%N) (if (row false l =? j)%N then r1 else r0))
                (rmul (u (N.b2n (qbit false n i t)) 1%N) (if (row true l =? j)%N then r1 else r0))).
      { destruct (qbit false n i t) eqn:Eb; rewrite Ei; [exact E1|exact E0]. }
      rewrite Eentry. clear Eentry E0 E1.
      destruct (qset false n i t false =? qset false n j t false)%N eqn:Es.
      * destruct (qbit false n j t) eqn:Ebj.
        -- rewrite (Hjj true eq_refl eq_refl) at 1 2. rewrite N.eqb_refl.
           destruct (N.eqb_spec (row false l) (row true l)); [contradiction|]. simpl N.b2n. ring.
        -- rewrite (Hjj false eq_refl eq_refl) at 1 2. rewrite N.eqb_refl.
           destruct (N.eqb_spec (row true l) (row false l)) as [E|_]; [symmetry in E; contradiction|]. simpl N.b2n. ring.
      * destruct (N.eqb_spec (row false l) j) as [E|_].
        { destruct (Hq false (eq_sym E)) as [E' _]. congruence. }
        destruct (N.eqb_spec (row true l) j) as [E|_].
        { destruct (Hq true (eq_sym E)) as [E' _]. congruence. }
        ring.
    + rewrite Hout.
      * reflexivity.
      * assert (Hcov : forall b l, In l (bitstrings rep) -> i <> row b l).
        { intros b l Hl E. assert (Hc : forallb (qbit false n i) cs = true).
          { apply forallb_forall. intros q Hq. rewrite E, row_qbit by (auto; now right). unfold fval.
            destruct (Nat.eqb_spec (N.to_nat q) (N.to_nat t)); [|reflexivity].
            inversion Hnd; subst. exfalso. assert (q = t) by lia. congruence. }
          congruence. }
        intros b Hb. split; now apply Hcov.
Qed.
End BCU.

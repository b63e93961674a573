(** The names of registers. *)
From Coq Require Import List ZArith String Bool Arith Lia.
From Verif Require Import Py RegisterModel RegisterSpec RegisterProofs RegisterProofs2 WorldModel WorldSpec WorldReg WorldInv WorldInv2 WorldInv3 WorldInv4 WorldInv5 WorldInv6 WorldInv7.
Import ListNotations.
Local Open Scope list_scope.
Local Open Scope nat_scope.

Lemma append_inj a s t : String.append a s = String.append a t -> s = t.
Proof. induction a; simpl; [auto|]. intros [= H]. auto. Qed.

Definition qls (x : circ) : list label := map fst (s_regs (c_q x)).
Definition bls (x : circ) : list label := map fst (s_regs (c_b x)).

(** A default name is at its own position. *)
Definition placed (pre : string) (ls : list label) : Prop :=
  forall i l, nth_error ls i = Some l ->
    l = LStr (String.append pre (py_str i)) \/ forall s, l <> LStr (String.append pre s).

Lemma placed_free pre ls : placed pre ls -> ~ In (LStr (String.append pre (py_str (List.length ls)))) ls.
Proof.
  intros H Hi. apply In_nth_error in Hi. destruct Hi as [i Hi].
  destruct (H i _ Hi) as [E|E].
  - injection E as E. apply append_inj, py_str_inj in E. subst i.
    assert (List.length ls < List.length ls) by (apply nth_error_Some; congruence). lia.
  - now apply (E (py_str (List.length ls))).
Qed.

Lemma placed_snoc pre ls l : placed pre ls ->
  l = LStr (String.append pre (py_str (List.length ls))) \/ (forall s, l <> LStr (String.append pre s)) ->
  placed pre (ls ++ [l]).
Proof.
  intros H Hl i l' Hi. destruct (Nat.lt_ge_cases i (List.length ls)) as [L|L].
  - rewrite nth_error_app1 in Hi by exact L. eauto.
  - rewrite nth_error_app2 in Hi by exact L. destruct (i - List.length ls) as [|k] eqn:E; simpl in Hi.
    + injection Hi as <-. replace i with (List.length ls) by lia. exact Hl.
    + destruct k; discriminate.
Qed.

Lemma dset_labels l (r : register) rs :
  map fst (dset label_eqb l r rs) = (if dmem label_eqb l rs then map fst rs else map fst rs ++ [l]).
Proof.
  induction rs as [|[k s] rs IH]; simpl; [reflexivity|].
  unfold dmem in *. simpl. destruct (label_eqb_spec l k) as [->|n]; [reflexivity|]. simpl. rewrite IH.
  destruct (dget label_eqb l rs); reflexivity.
Qed.

Lemma dget_none_labels l (rs : list (label * register)) : dget label_eqb l rs = None <-> ~ In l (map fst rs).
Proof.
  induction rs as [|[k s] rs IH]; simpl; [tauto|]. destruct (label_eqb_spec l k) as [->|n].
  - split; [discriminate|]. intros H. exfalso. auto.
  - rewrite IH. intuition congruence.
Qed.
Lemma dget_some_labels l (rs : list (label * register)) r : dget label_eqb l rs = Some r -> In l (map fst rs).
Proof.
  intros H. destruct (in_dec label_eq_dec l (map fst rs)) as [Hi|Hn]; [exact Hi|].
  apply dget_none_labels in Hn. congruence.
Qed.
Lemma dmem_labels l (rs : list (label * register)) : dmem label_eqb l rs = true <-> In l (map fst rs).
Proof.
  unfold dmem. destruct (dget label_eqb l rs) eqn:E.
  - split; [|reflexivity]. intros _. eapply dget_some_labels; eauto.
  - apply dget_none_labels in E. split; [discriminate|contradiction].
Qed.

Section Labels.
Variable P : Type.
Variable ptrue : P -> bool.
Variable peqb : P -> P -> bool.
Notation world := (world P).
Notation M := (M P).

Definition lab (w w' : world) : Prop :=
  map qls (w_circ w') = map qls (w_circ w) /\ map bls (w_circ w') = map bls (w_circ w).

Lemma lab_put (w : world) c x y : nth_error (w_circ w) c = Some x -> qls y = qls x -> bls y = bls x ->
  lab w (set_circ w (set_nth c y (w_circ w))).
Proof. intros E H1 H2. split; cbn; eapply map_set_nth_same; eauto. Qed.

Section Keep.
Variable I : world -> Prop.
Hypothesis I_lab : forall w w', lab w w' -> I w -> I w'.

Lemma lab_same w w' : same P w w' -> I w -> I w'.
Proof.
  intros (A & B & _). apply I_lab. split.
  - transitivity (map (fun s => map fst (s_regs s)) (map c_q (w_circ w'))); [now rewrite map_map|].
    rewrite A. now rewrite map_map.
  - transitivity (map (fun s => map fst (s_regs s)) (map c_b (w_circ w'))); [now rewrite map_map|].
    rewrite B. now rewrite map_map.
Qed.

Lemma keepsL_eq {A} (m : M A) : grows P m -> (forall w, lab w (fst (m w))) -> keeps P I m.
Proof. intros G H. split; [auto|]. intros w _. apply I_lab, H. Qed.

Lemma lab_refl w : lab w w. Proof. split; reflexivity. Qed.

Lemma keepsL_upd_circ c f : (forall x, qls (f x) = qls x) -> (forall x, bls (f x) = bls x) ->
  keeps P I (@upd_circ P c f).
Proof.
  intros H1 H2. apply keepsL_eq; [apply grows_upd_circ|]. intros w. destruct (nth_error (w_circ w) c) as [x|] eqn:E.
  - rewrite (upd_circ_run _ c f w x E). cbn [fst]. eapply lab_put; eauto.
  - unfold upd_circ. rewrite (bind_err _ _ _ _ _ _ (get_circ_none _ c w E)). now split.
Qed.

Lemma keepsL_qubits c : keeps P I (@qubits P c).
Proof.
  apply keepsL_eq; [apply grows_qubits|]. intros w. unfold qubits.
  destruct (nth_error (w_circ w) c) as [x|] eqn:E;
    [rewrite (bind_ok _ _ _ _ _ _ (get_circ_some _ c w x E))
    |rewrite (bind_err _ _ _ _ _ _ (get_circ_none _ c w E)); now split].
  destruct (s_cache (c_q x)); [now split|]. unfold read, lift, mbind.
  destruct (concat_regs (w_bit w) (c_q x)) as [r|e] eqn:Er; [|now split]. cbn [fst put_circ ret].
  eapply lab_put; eauto.
Qed.
Lemma keepsL_bits c : keeps P I (@bits P c).
Proof.
  apply keepsL_eq; [apply grows_bits|]. intros w. unfold bits.
  destruct (nth_error (w_circ w) c) as [x|] eqn:E;
    [rewrite (bind_ok _ _ _ _ _ _ (get_circ_some _ c w x E))
    |rewrite (bind_err _ _ _ _ _ _ (get_circ_none _ c w E)); now split].
  destruct (s_cache (c_b x)); [now split|]. unfold read, lift, mbind.
  destruct (concat_regs (w_bit w) (c_b x)) as [r|e] eqn:Er; [|now split]. cbn [fst put_circ ret].
  eapply lab_put; eauto.
Qed.
Lemma keepsL_drop_q c : keeps P I (@drop_qcache P c).
Proof. now apply keepsL_upd_circ. Qed.
Lemma keepsL_drop_b c : keeps P I (@drop_bcache P c).
Proof. now apply keepsL_upd_circ. Qed.
Lemma keepsL_new_qubits n a : keeps P I (@new_qubits P a n).
Proof. apply keepsL_eq; [apply grows_new_qubits|]. intros w. rewrite new_qubits_run. now split. Qed.
Lemma keepsL_new_bits n a : keeps P I (@new_bits P a n).
Proof. apply keepsL_eq; [apply grows_new_bits|]. intros w. rewrite new_bits_run. now split. Qed.
Lemma keepsL_new_qubit l : keeps P I (@new_qubit P l).
Proof. apply keepsL_eq; [apply grows_new_qubit|]. intros w. now split. Qed.
Lemma keepsL_new_bit l : keeps P I (@new_bit P l).
Proof. apply keepsL_eq; [apply grows_new_bit|]. intros w. now split. Qed.
Lemma keepsL_bit_reset b : keeps P I (@bit_reset P b).
Proof.
  apply keepsL_eq; [apply grows_bit_reset|]. intros w. unfold bit_reset.
  destruct (nth_error (w_bit w) b) as [[l v]|]; now split.
Qed.
Lemma keepsL_bit_set b v f : keeps P I (@bit_set P b v f).
Proof.
  apply keepsL_eq; [apply grows_bit_set|]. intros w. unfold bit_set.
  destruct (nth_error (w_bit w) b) as [[l o]|]; [|now split]. destruct o; [destruct f|]; now split.
Qed.
Lemma keepsL_exists_q a : keeps P I (@qubit_exists P a).
Proof.
  apply keepsL_eq; [apply grows_qubit_exists|]. intros w. destruct a; cbn; try now split.
  unfold mbind. destruct (nth_error (w_qubit w) i); now split.
Qed.
Lemma keepsL_exists_b a : keeps P I (@bit_exists P a).
Proof.
  apply keepsL_eq; [apply grows_bit_exists|]. intros w. destruct a; cbn; try now split.
  unfold mbind. destruct (nth_error (w_bit w) i); now split.
Qed.
End Keep.

(** The invariant. *)
Definition LI (w : world) : Prop :=
  Forall (placed "qreg") (map qls (w_circ w)) /\ Forall (placed "creg") (map bls (w_circ w)).

Lemma LI_lab w w' : lab w w' -> LI w -> LI w'.
Proof. intros [A B]. unfold LI. now rewrite A, B. Qed.

(** The invariant, and what is known of the names in one circuit. *)
Definition LQ (c : nat) (K : list label -> Prop) (w : world) : Prop :=
  LI w /\ forall x, nth_error (w_circ w) c = Some x -> K (qls x).
Definition LB (c : nat) (K : list label -> Prop) (w : world) : Prop :=
  LI w /\ forall x, nth_error (w_circ w) c = Some x -> K (bls x).

Lemma map_nth_eq {A B} (f : A -> B) l l' c y : map f l' = map f l -> nth_error l' c = Some y ->
  exists x, nth_error l c = Some x /\ f x = f y.
Proof.
  intros E H. assert (H1 : nth_error (map f l) c = Some (f y)) by (rewrite <- E, nth_map, H; reflexivity).
  rewrite nth_map in H1. destruct (nth_error l c); [|discriminate]. simpl in H1. injection H1 as H1. eauto.
Qed.
Lemma LQ_lab c K w w' : lab w w' -> LQ c K w -> LQ c K w'.
Proof.
  intros L [H1 H2]. split; [eapply LI_lab; eauto|]. intros x Hx. destruct L as [L _].
  destruct (map_nth_eq _ _ _ _ _ L Hx) as (y & Hy & E). rewrite <- E. auto.
Qed.
Lemma LB_lab c K w w' : lab w w' -> LB c K w -> LB c K w'.
Proof.
  intros L [H1 H2]. split; [eapply LI_lab; eauto|]. intros x Hx. destruct L as [_ L].
  destruct (map_nth_eq _ _ _ _ _ L Hx) as (y & Hy & E). rewrite <- E. auto.
Qed.

(** Entering and leaving the finer invariant. *)
Lemma keepsL_read {A} c (I : world -> Prop) (k : circ -> M A) :
  (forall x, keeps P I (k x)) -> (forall x (w : world), nth_error (w_circ w) c = Some x -> LI w -> I w) -> (forall w, I w -> LI w) ->
  keeps P LI (let! x := get_circ c in k x).
Proof.
  intros H1 H2 H3. split; [apply grows_bind; [apply grows_get_circ|intros x; apply H1]|].
  intros w. destruct (nth_error (w_circ w) c) as [x|] eqn:E.
  - rewrite (bind_ok _ _ _ _ _ _ (get_circ_some _ c w x E)). intros S Hl. apply H3, H1; eauto.
  - rewrite (bind_err _ _ _ _ _ _ (get_circ_none _ c w E)). auto.
Qed.

Lemma placed_dset pre l (r : register) rs : placed pre (map fst rs) ->
  In l (map fst rs) \/ l = LStr (String.append pre (py_str (List.length (map fst rs)))) \/ (forall s, l <> LStr (String.append pre s)) ->
  placed pre (map fst (dset label_eqb l r rs)).
Proof.
  intros H Hl. rewrite dset_labels. destruct (dmem label_eqb l rs) eqn:E; [exact H|].
  destruct Hl as [Hl|Hl]; [apply dmem_labels in Hl; congruence|]. now apply placed_snoc.
Qed.

Lemma LI_put (w : world) c x y : LI w -> nth_error (w_circ w) c = Some x ->
  (placed "qreg" (qls x) -> placed "qreg" (qls y)) -> (placed "creg" (bls x) -> placed "creg" (bls y)) ->
  LI (set_circ w (set_nth c y (w_circ w))).
Proof.
  intros [A B] E H1 H2. unfold LI. cbn. rewrite !set_nth_map. split; apply set_nth_Forall; auto.
  - apply H1. apply (Forall_nth _ _ c _ A). now rewrite nth_map, E.
  - apply H2. apply (Forall_nth _ _ c _ B). now rewrite nth_map, E.
Qed.

Lemma keepsL_put_q c l r (K : list label -> Prop) :
  (forall ls, K ls -> In l ls \/ l = LStr (String.append "qreg" (py_str (List.length ls))) \/ (forall s, l <> LStr (String.append "qreg" s))) ->
  forall w : world, LQ c K w -> LI (fst (put_qreg c l r w)).
Proof.
  intros H w [Hl Hk]. unfold put_qreg. destruct (nth_error (w_circ w) c) as [x|] eqn:E.
  - rewrite (upd_circ_run _ c _ w x E). cbn [fst]. eapply LI_put; [exact Hl|exact E| |intros Hp; exact Hp]. intros Hp.
    apply placed_dset; [exact Hp|]. apply H, Hk. exact eq_refl.
  - unfold upd_circ. rewrite (bind_err _ _ _ _ _ _ (get_circ_none _ c w E)). exact Hl.
Qed.
Lemma keepsL_put_b c l r (K : list label -> Prop) :
  (forall ls, K ls -> In l ls \/ l = LStr (String.append "creg" (py_str (List.length ls))) \/ (forall s, l <> LStr (String.append "creg" s))) ->
  forall w : world, LB c K w -> LI (fst (put_creg c l r w)).
Proof.
  intros H w [Hl Hk]. unfold put_creg. destruct (nth_error (w_circ w) c) as [x|] eqn:E.
  - rewrite (upd_circ_run _ c _ w x E). cbn [fst]. eapply LI_put; [exact Hl|exact E|intros Hp; exact Hp|]. intros Hp.
    apply placed_dset; [exact Hp|]. apply H, Hk. exact eq_refl.
  - unfold upd_circ. rewrite (bind_err _ _ _ _ _ _ (get_circ_none _ c w E)). exact Hl.
Qed.

(** [m] turns what [I] says into the invariant. *)
Definition settles (I : world -> Prop) {A} (m : M A) : Prop :=
  grows P m /\ forall w, small P (fst (m w)) -> I w -> LI (fst (m w)).

Lemma settles_bind (I : world -> Prop) {A B} (m : M A) (k : A -> M B) :
  (forall w, I w -> LI w) -> keeps P I m -> (forall a, settles I (k a)) -> settles I (mbind m k).
Proof.
  intros HI [G K] H. split.
  - apply grows_bind; [exact G|]. intros a. apply H.
  - intros w S Hi. unfold mbind in *. specialize (K w). specialize (G w).
    destruct (m w) as [w' [a|e]]; simpl in *; [|auto].
    apply (H a); [exact S|]. apply K; [|exact Hi]. eapply small_mono; [|exact S]. apply (H a).
Qed.
Lemma settles_last (I : world -> Prop) {A B} (m : M A) (k : A -> M B) :
  settles I m -> (forall a, keeps P LI (k a)) -> settles I (mbind m k).
Proof.
  intros [G K] H. split.
  - apply grows_bind; [exact G|]. intros a. apply H.
  - intros w S Hi. unfold mbind in *. specialize (K w). specialize (G w).
    destruct (m w) as [w' [a|e]]; simpl in *; [|auto].
    apply (H a); [exact S|]. apply K; [|exact Hi]. eapply small_mono; [|exact S]. apply (H a).
Qed.
Lemma settles_of (I : world -> Prop) {A} (m : M A) : keeps P I m -> (forall w, I w -> LI w) -> settles I m.
Proof. intros [G K] H. split; [exact G|]. intros w S Hi. apply H. auto. Qed.
Lemma settles_raise (I : world -> Prop) {A} e : (forall w, I w -> LI w) -> settles I (@raise P A e).
Proof. intros H. split; [apply grows_raise|]. intros w _. apply H. Qed.
Lemma keeps_settles {A} (m : M A) : settles LI m -> keeps P LI m.
Proof. intros H. exact H. Qed.
Lemma settles_read {A} c (k : circ -> M A) (I I' : world -> Prop) :
  (forall x, settles (I' ) (k x)) -> (forall x (w : world), nth_error (w_circ w) c = Some x -> I w -> I' w) ->
  (forall w, I w -> LI w) ->
  settles I (let! x := get_circ c in k x).
Proof.
  intros H1 H2 H3. split; [apply grows_bind; [apply grows_get_circ|intros x; apply H1]|].
  intros w. destruct (nth_error (w_circ w) c) as [x|] eqn:E.
  - rewrite (bind_ok _ _ _ _ _ _ (get_circ_some _ c w x E)). intros S Hl. apply H1; eauto.
  - rewrite (bind_err _ _ _ _ _ _ (get_circ_none _ c w E)). auto.
Qed.
Lemma settles_put_q c l r (K : list label -> Prop) :
  (forall ls, K ls -> In l ls \/ l = LStr (String.append "qreg" (py_str (List.length ls))) \/ (forall s, l <> LStr (String.append "qreg" s))) ->
  settles (LQ c K) (put_qreg c l r).
Proof. intros H. split; [apply grows_upd_circ|]. intros w _. now apply keepsL_put_q. Qed.
Lemma settles_put_b c l r (K : list label -> Prop) :
  (forall ls, K ls -> In l ls \/ l = LStr (String.append "creg" (py_str (List.length ls))) \/ (forall s, l <> LStr (String.append "creg" s))) ->
  settles (LB c K) (put_creg c l r).
Proof. intros H. split; [apply grows_upd_circ|]. intros w _. now apply keepsL_put_b. Qed.

Lemma LQ_LI c K w : LQ c K w -> LI w. Proof. now intros []. Qed.
Lemma LB_LI c K w : LB c K w -> LI w. Proof. now intros []. Qed.

Ltac kl_step IL := first
  [ apply keeps_ret; exact (lab_same _ IL) | apply keeps_raise; exact (lab_same _ IL) | apply keeps_lift; exact (lab_same _ IL)
  | apply keeps_read; exact (lab_same _ IL) | apply keeps_get_circ; exact (lab_same _ IL)
  | apply (keepsL_qubits _ IL) | apply (keepsL_bits _ IL) | apply (keepsL_new_qubits _ IL) | apply (keepsL_new_bits _ IL)
  | apply (keepsL_new_qubit _ IL) | apply (keepsL_new_bit _ IL) | apply (keepsL_bit_reset _ IL) | apply (keepsL_bit_set _ IL)
  | apply (keepsL_drop_q _ IL) | apply (keepsL_drop_b _ IL)
  | apply (keepsL_exists_q _ IL) | apply (keepsL_exists_b _ IL)
  | apply keeps_when; [exact (lab_same _ IL)|] | apply keeps_iterM; [exact (lab_same _ IL)|intros ?]
  | match goal with |- keeps _ _ (match ?b with _ => _ end) => destruct b end
  | apply keeps_upd_circ; [exact (lab_same _ IL)|intros ?; reflexivity|intros ?; reflexivity]
  | apply keeps_bind; [|intros ?] ].

(** *** add_qregister, add_cregister *)

Definition fine_q (l : label) : Prop := forall s, l <> LStr (String.append "qreg" s).
Definition fine_b (l : label) : Prop := forall s, l <> LStr (String.append "creg" s).

Lemma add_qregister_li c n l : fine_q l -> keeps P LI (@add_qregister P c n l).
Proof.
  intros Hf. unfold add_qregister.
  split; [apply grows_add_qregister|].
  intros w. destruct (nth_error (w_circ w) c) as [x|] eqn:E.
  2: { rewrite (bind_err _ _ _ _ _ _ (get_circ_none _ c w E)). auto. }
  rewrite (bind_ok _ _ _ _ _ _ (get_circ_some _ c w x E)). fold (qlabel x l).
  destruct (regmem (qlabel x l) (c_q x)); [auto|]. intros S Hl. revert S.
  set (K := fun ls : list label => List.length ls = List.length (qls x)).
  assert (HL : LQ c K w) by (split; [exact Hl|]; intros y Hy; rewrite E in Hy; injection Hy as <-; reflexivity).
  intros S. revert S HL.
  match goal with |- small P (fst (?m w)) -> _ => assert (HS : settles (LQ c K) m) end.
  { unfold num_qubits.
    do 4 (apply settles_bind; [apply LQ_LI|repeat kl_step (LQ_lab c K)|intros ?]).
    apply settles_last; [apply settles_put_q|intros _; apply (keepsL_drop_q _ LI_lab)].
    intros ls HK. right. destruct l; [left|right; exact Hf..].
    unfold qlabel, K, qls in *. now rewrite HK, map_length. }
  intros S HL. now apply HS.
Qed.
Lemma add_cregister_li c n l : fine_b l -> keeps P LI (@add_cregister P c n l).
Proof.
  intros Hf. unfold add_cregister.
  split; [apply grows_add_cregister|].
  intros w. destruct (nth_error (w_circ w) c) as [x|] eqn:E.
  2: { rewrite (bind_err _ _ _ _ _ _ (get_circ_none _ c w E)). auto. }
  rewrite (bind_ok _ _ _ _ _ _ (get_circ_some _ c w x E)). fold (clabel x l).
  destruct (regmem (clabel x l) (c_b x)); [auto|]. intros S Hl. revert S.
  set (K := fun ls : list label => List.length ls = List.length (bls x)).
  assert (HL : LB c K w) by (split; [exact Hl|]; intros y Hy; rewrite E in Hy; injection Hy as <-; reflexivity).
  intros S. revert S HL.
  match goal with |- small P (fst (?m w)) -> _ => assert (HS : settles (LB c K) m) end.
  { unfold num_bits.
    do 4 (apply settles_bind; [apply LB_LI|repeat kl_step (LB_lab c K)|intros ?]).
    apply settles_last; [apply settles_put_b|intros _; apply (keepsL_drop_b _ LI_lab)].
    intros ls HK. right. destruct l; [left|right; exact Hf..].
    unfold clabel, K, bls in *. now rewrite HK, map_length. }
  intros S HL. now apply HS.
Qed.

(** *** add_qubit, add_bit and direct use of a register *)

Lemma regget_q {A} c l (k : circ -> register -> M A) :
  (forall y r, settles (LQ c (fun ls => In l ls)) (k y r)) ->
  keeps P LI (let! y := get_circ c in let! r := regget l (c_q y) in k y r).
Proof.
  intros H. assert (G : grows P (let! y := get_circ c in let! r := regget l (c_q y) in k y r)).
  { apply grows_bind; [apply grows_get_circ|]. intros y. apply grows_bind; [apply grows_regget|]. intros r. apply H. }
  split; [exact G|]. intros w. destruct (nth_error (w_circ w) c) as [x|] eqn:E.
  2: { rewrite (bind_err _ _ _ _ _ _ (get_circ_none _ c w E)). auto. }
  rewrite (bind_ok _ _ _ _ _ _ (get_circ_some _ c w x E)). unfold regget.
  destruct (dget label_eqb l (s_regs (c_q x))) as [r|] eqn:Er; [|auto].
  unfold mbind at 1, ret at 1. unfold mbind at 1, ret at 1. intros S Hl. apply H; [exact S|]. split; [exact Hl|].
  intros y Hy. rewrite E in Hy. injection Hy as <-. eapply dget_some_labels; eauto.
Qed.
Lemma regget_b {A} c l (k : circ -> register -> M A) :
  (forall y r, settles (LB c (fun ls => In l ls)) (k y r)) ->
  keeps P LI (let! y := get_circ c in let! r := regget l (c_b y) in k y r).
Proof.
  intros H. assert (G : grows P (let! y := get_circ c in let! r := regget l (c_b y) in k y r)).
  { apply grows_bind; [apply grows_get_circ|]. intros y. apply grows_bind; [apply grows_regget|]. intros r. apply H. }
  split; [exact G|]. intros w. destruct (nth_error (w_circ w) c) as [x|] eqn:E.
  2: { rewrite (bind_err _ _ _ _ _ _ (get_circ_none _ c w E)). auto. }
  rewrite (bind_ok _ _ _ _ _ _ (get_circ_some _ c w x E)). unfold regget.
  destruct (dget label_eqb l (s_regs (c_b x))) as [r|] eqn:Er; [|auto].
  unfold mbind at 1, ret at 1. unfold mbind at 1, ret at 1. intros S Hl. apply H; [exact S|]. split; [exact Hl|].
  intros y Hy. rewrite E in Hy. injection Hy as <-. eapply dget_some_labels; eauto.
Qed.

Lemma put_lift_q c l r (o : res unit) : settles (LQ c (fun ls => In l ls)) (put_qreg c l r ;; lift o).
Proof. apply settles_last; [apply settles_put_q; auto|]. intros _. kl_step LI_lab. Qed.
Lemma put_lift_b c l r (o : res unit) : settles (LB c (fun ls => In l ls)) (put_creg c l r ;; lift o).
Proof. apply settles_last; [apply settles_put_b; auto|]. intros _. kl_step LI_lab. Qed.
Lemma put_tail_q c l r (o : res unit) : settles (LQ c (fun ls => In l ls)) (put_qreg c l r ;; lift o ;; drop_qcache c).
Proof. apply settles_last; [apply settles_put_q; auto|]. intros _. repeat kl_step LI_lab. Qed.
Lemma put_tail_b c l r (o : res unit) : settles (LB c (fun ls => In l ls)) (put_creg c l r ;; lift o ;; drop_bcache c).
Proof. apply settles_last; [apply settles_put_b; auto|]. intros _. repeat kl_step LI_lab. Qed.

Lemma add_qubit_li c a l : fine_q l -> keeps P LI (@add_qubit P c a l).
Proof.
  intros Hf. unfold add_qubit.
  assert (H : keeps P LI (
    @qubit_exists P a ;;
    let! x := get_circ c in
    let! l' :=
      match l with
      | LNone =>
          when (match s_regs (c_q x) with [] => true | _ => false end) (add_qregister c 0 LNone) ;;
          let! y := get_circ c in @first_label P (c_q y)
      | _ => when (negb (regmem l (c_q x))) (add_qregister c 0 l) ;; ret l
      end in
    let! v := qubits c in
    let! dup := lift (count (core v) (match a with AItem q => IQubit q | _ => INone end)) in
    if dup then raise ValueError
    else
      let! y := get_circ c in
      let! r := @regget P l' (c_q y) in
      let! q := match a with
                | AItem q => ret q
                | _ => let! k := num_qubits c in new_qubit (LStr (py_str k))
                end in
      let! bs := read (@w_bit P) in
      let (r', o) := add (numeq bs) r [IQubit q] in
      put_qreg c l' r' ;; lift o ;;
      drop_qcache c)).
  { unfold first_label.
    repeat first
      [ apply add_qregister_li; exact Hf
      | apply regget_q; intros ? ?
      | kl_step LI_lab ].
    all: unfold num_qubits; do 2 (match goal with |- settles (LQ ?c ?K) _ => apply settles_bind; [apply LQ_LI|repeat kl_step (LQ_lab c K)|intros ?] end).
    all: match goal with |- context [add ?n ?r ?v] => destruct (add n r v) as [r' o] end; apply put_tail_q. }
  destruct a; [exact H|exact H|]. kl_step LI_lab.
Qed.

Lemma add_bit_li c a l : fine_b l -> keeps P LI (@add_bit P c a l).
Proof.
  intros Hf. unfold add_bit.
  assert (H : keeps P LI (
    @bit_exists P a ;;
    let! x := get_circ c in
    let! l' :=
      match l with
      | LNone =>
          when (match s_regs (c_b x) with [] => true | _ => false end) (add_cregister c 0 LNone) ;;
          let! y := get_circ c in @first_label P (c_b y)
      | _ => when (negb (regmem l (c_b x))) (add_cregister c 0 l) ;; ret l
      end in
    let! v := bits c in
    let! dup := if Nat.eqb (stop (core v)) 0 then ret false
                else lift (count (core v) (match a with AItem q => IBit q | _ => INone end)) in
    if dup then raise ValueError
    else
      let! y := get_circ c in
      let! r := @regget P l' (c_b y) in
      let! given := read (fun w => match a with AItem b => bit_true w b | _ => false end) in
      let! b := match a with
                | AItem b => if given then ret b
                             else let! k := num_bits c in new_bit (LStr (py_str k))
                | _ => let! k := num_bits c in new_bit (LStr (py_str k))
                end in
      let! bs := read (@w_bit P) in
      let (r', o) := add (numeq bs) r [IBit b] in
      put_creg c l' r' ;; lift o ;;
      drop_bcache c)).
  { unfold first_label.
    repeat first
      [ apply add_cregister_li; exact Hf
      | apply regget_b; intros ? ?
      | kl_step LI_lab ].
    all: unfold num_bits; do 3 (match goal with |- settles (LB ?c ?K) _ => apply settles_bind; [apply LB_LI|repeat kl_step (LB_lab c K)|intros ?] end).
    all: match goal with |- context [add ?n ?r ?v] => destruct (add n r v) as [r' o] end; apply put_tail_b. }
  destruct a; [exact H|exact H|]. kl_step LI_lab.
Qed.

Lemma qreg_add_li c l vs : keeps P LI (@qreg_add P c l vs).
Proof.
  unfold qreg_add. apply regget_q. intros y r.
  match goal with |- settles (LQ ?c ?K) _ => apply settles_bind; [apply LQ_LI|repeat kl_step (LQ_lab c K)|intros bs] end.
  destruct (add (numeq bs) r vs) as [r' o]. apply put_lift_q.
Qed.
Lemma creg_add_li c l vs : keeps P LI (@creg_add P c l vs).
Proof.
  unfold creg_add. apply regget_b. intros y r.
  match goal with |- settles (LB ?c ?K) _ => apply settles_bind; [apply LB_LI|repeat kl_step (LB_lab c K)|intros bs] end.
  destruct (add (numeq bs) r vs) as [r' o]. apply put_lift_b.
Qed.
Lemma qreg_freeze_li c l : keeps P LI (@qreg_freeze P c l).
Proof. unfold qreg_freeze. apply regget_q. intros y r. now apply settles_put_q; auto. Qed.
Lemma creg_freeze_li c l : keeps P LI (@creg_freeze P c l).
Proof. unfold creg_freeze. apply regget_b. intros y r. now apply settles_put_b; auto. Qed.

Lemma LI_append par : keeps P LI
  (fun w => (set_circ w (w_circ w ++ [mkCirc [] (mkSide [] None) (mkSide [] None) false None par [] false]), Ok tt)).
Proof.
  split; [apply grows_eq; auto|]. intros w _ [A B]. unfold LI. cbn. rewrite !map_app.
  split; apply Forall_app; split; auto; constructor; auto; intros [|i] l H; discriminate.
Qed.

Lemma fine_none_q : fine_q LNone. Proof. intros s. discriminate. Qed.
Lemma fine_none_b : fine_b LNone. Proof. intros s. discriminate. Qed.

Lemma LI_drop c : keeps P LI (@upd_circ P c (fun x => with_b (with_q x (mkSide [] (s_cache (c_q x)))) (mkSide [] (s_cache (c_b x))))).
Proof.
  split; [apply grows_upd_circ|]. intros w _ Hl. destruct (nth_error (w_circ w) c) as [x|] eqn:E.
  - rewrite (upd_circ_run _ c _ w x E). cbn [fst]. eapply LI_put; [exact Hl|exact E|..]; intros _ [|i] l H; discriminate.
  - unfold upd_circ. rewrite (bind_err _ _ _ _ _ _ (get_circ_none _ c w E)). exact Hl.
Qed.

Lemma LI_call x : own_labels x -> keeps P LI (do_call ptrue peqb x).
Proof.
  intros Hn. destruct (plain_call P x) eqn:E.
  - apply (k_do_call P ptrue peqb LI (lab_same _ LI_lab) (keepsL_qubits _ LI_lab) (keepsL_bits _ LI_lab)); auto.
  - destruct x; try discriminate E; cbn [do_call];
    try (unfold unit_of, new_circuit, reset, item_reset;
      repeat first [ apply add_qregister_li; [exact Hn|apply fine_none_q]
        | apply add_qregister_li; [apply fine_none_q] | apply add_qregister_li; exact Hn
        | apply add_cregister_li; [apply fine_none_b] | apply add_cregister_li; exact Hn
        | apply add_qubit_li; exact Hn | apply add_bit_li; exact Hn
        | apply qreg_add_li | apply creg_add_li | apply qreg_freeze_li | apply creg_freeze_li
        | apply LI_append | apply LI_drop | apply (k_unlock P LI (lab_same _ LI_lab)) | kl_step LI_lab ]; fail).
Qed.

Theorem LI_reach v : reaches P ptrue peqb (fun _ x => own_labels x) v -> small P v -> LI v.
Proof.
  intros (ks & p & He & Hv) S.
  apply (run_visits P ptrue peqb LI) with (ok := fun _ x => own_labels x) (p := p) (w := start P ks); auto.
  - exact (lab_same _ LI_lab).
  - exact (keepsL_qubits _ LI_lab).
  - exact (keepsL_bits _ LI_lab).
  - apply grows_do_call.
  - intros w x Hk. now apply LI_call.
  - split; constructor.
Qed.
End Labels.

(** What add_qregister, add_cregister, add_qubit and add_bit do. *)
From Coq Require Import List ZArith String Bool Arith Lia.
From Verif Require Import Py RegisterModel RegisterSpec RegisterProofs WorldModel WorldSpec WorldReg WorldInv WorldInv2.
Import ListNotations.
Local Open Scope nat_scope.

(** ** Registers *)

Lemma new_register_seen bs vs :
  Forall prim vs -> NoDup vs -> ssize_ok (zn (List.length vs) + 1) = true ->
  exists r, new_register (numeq bs) vs = Ok r /\ regok r /\ contents r = seen_from bs 0 vs /\ frozen_ r = Some false.
Proof.
  intros Hp Hn Hs. unfold new_register, init_list.
  destruct (extend_seen bs true vs empty_reg []) as (r & E & R & _); auto using rep_empty, tidy_nil.
  simpl in R. rewrite E. simpl. exists (mkRegister r (Some false)).
  split; [reflexivity|]. split; [now apply regok_rep with (l := seen_from bs 0 vs)|].
  split; [now apply rep_contents|reflexivity].
Qed.

Lemma count_prim r v : regok r -> prim v -> count (core r) v = Ok (inb v (contents r)).
Proof.
  intros R Hp. rewrite (count_spec _ _ _ R). unfold spec_contains. now rewrite (prim_ask v Hp).
Qed.

Lemma count_none r : regok r -> count (core r) INone = Ok (inb INone (contents r)).
Proof. intros R. rewrite (count_spec _ _ _ R). reflexivity. Qed.

Lemma register_eta r : mkRegister (core r) (frozen_ r) = r.
Proof. destruct r; reflexivity. Qed.

Lemma add_frozen bs r vs : frozen_ r = Some true -> add (numeq bs) r vs = (r, Err RegisterError).
Proof. intros H. unfold add, frozen. now rewrite H. Qed.

Lemma add_present bs r v : regok r -> prim v -> In v (contents r) -> frozen_ r = Some false ->
  add (numeq bs) r [v] = (r, Err ValueError).
Proof.
  intros R Hp Hi Hf. unfold add, frozen. rewrite Hf. simpl.
  rewrite (append_prim bs (core r) v false Hp), (mem_l2i_nonint _ _ _ R) by (intros; now apply prim_not_int).
  apply inb_In in Hi. rewrite Hi. now rewrite <- Hf, register_eta.
Qed.

Lemma add_fresh bs r v : regok r -> tidy (contents r) -> prim v -> ~ In v (contents r) -> frozen_ r = Some false ->
  ssize_ok (zn (List.length (contents r)) + 1) = true ->
  exists r', add (numeq bs) r [v] = (r', Ok tt) /\ regok r' /\ frozen_ r' = Some false /\
    contents r' = contents r ++ [seen bs (List.length (contents r)) v].
Proof.
  intros R T Hp Hi Hf Hs. unfold add, frozen. rewrite Hf. simpl.
  destruct (append_seen bs (core r) (contents r) v false R T Hp Hi Hs) as (c & -> & Rc).
  exists (mkRegister c (Some false)). split; [reflexivity|].
  split; [now apply regok_rep with (l := contents r ++ [seen bs (List.length (contents r)) v])|].
  split; [reflexivity|]. now apply rep_contents.
Qed.

Lemma stop_contents r : regok r -> stop (core r) = List.length (contents r).
Proof. intros R. exact (rep_stop _ _ R). Qed.

Lemma NoDup_map_seq {A} (f : nat -> A) a n : (forall i j, f i = f j -> i = j) -> NoDup (map f (seq a n)).
Proof.
  intros H. apply FinFun.Injective_map_NoDup; [intros i j; apply H|apply seq_NoDup].
Qed.

Lemma gq_seq a n : Forall (gq (a + n)) (map IQubit (seq a n)).
Proof.
  apply Forall_forall. intros v Hv. apply in_map_iff in Hv. destruct Hv as (q & <- & Hq).
  apply in_seq in Hq. exists q. split; [auto|lia].
Qed.
Lemma gb_seq a n : Forall (gb (a + n)) (map IBit (seq a n)).
Proof.
  apply Forall_forall. intros v Hv. apply in_map_iff in Hv. destruct Hv as (q & <- & Hq).
  apply in_seq in Hq. exists q. split; [auto|lia].
Qed.

Lemma in_items l r (rs : list (label * register)) v :
  dget label_eqb l rs = Some r -> In v (contents r) -> In v (all_items rs).
Proof.
  intros H Hv. destruct (dget_split _ _ _ H) as (a & b & -> & _).
  rewrite all_items_app. apply in_app_iff. right. unfold all_items. simpl. apply in_app_iff. auto.
Qed.

Lemma dget_snoc l (r : register) rs : dget label_eqb l rs = None -> dget label_eqb l (rs ++ [(l, r)]) = Some r.
Proof.
  induction rs as [|[k s] rs IH]; simpl.
  - destruct (label_eqb_spec l l); congruence.
  - destruct (label_eqb_spec l k); [discriminate|auto].
Qed.

Lemma tidy_good (good : item -> Prop) r : (forall v, good v -> prim v) -> Forall good (contents r) -> tidy (contents r).
Proof. intros H G. apply tidy_prim. eapply Forall_impl; [|exact G]. auto. Qed.

Lemma regs_ok_length good rs l r : regs_ok good rs -> dget label_eqb l rs = Some r ->
  List.length (contents r) <= List.length (all_items rs).
Proof.
  intros _ H. destruct (dget_split _ _ _ H) as (a & b & -> & _).
  rewrite all_items_app. unfold all_items at 2. simpl. rewrite !app_length. lia.
Qed.

Section Add.
Variable P : Type.
Notation world := (world P).
Notation M := (M P).

Lemma grows_bind {A B} (m : M A) (k : A -> M B) : grows P m -> (forall a, grows P (k a)) -> grows P (mbind m k).
Proof.
  intros G H w. unfold mbind. specialize (G w). destruct (m w) as [w' [a|e]]; simpl in *; [|auto].
  eapply mono_trans; [exact G|]. apply H.
Qed.
Lemma grows_eq {A} (m : M A) : (forall w, w_qubit (fst (m w)) = w_qubit w /\ w_bit (fst (m w)) = w_bit w) -> grows P m.
Proof. intros H w. destruct (H w) as [E1 E2]. split; rewrite ?E1, ?E2; lia. Qed.
Lemma grows_upd_circ c f : grows P (@upd_circ P c f).
Proof.
  apply grows_eq. intros w. unfold upd_circ, mbind, get_circ. destruct (nth_error (w_circ w) c); cbn; auto.
Qed.
Lemma grows_get_circ c : grows P (@get_circ P c).
Proof. apply grows_eq. intros w. unfold get_circ. destruct (nth_error (w_circ w) c); cbn; auto. Qed.
Lemma grows_ret {A} (a : A) : grows P (ret a). Proof. apply grows_eq. auto. Qed.
Lemma grows_raise {A} e : grows P (@raise P A e). Proof. apply grows_eq. auto. Qed.
Lemma grows_lift {A} (r : res A) : grows P (lift r). Proof. apply grows_eq. auto. Qed.
Lemma grows_read {A} (f : world -> A) : grows P (read f). Proof. apply grows_eq. auto. Qed.
Lemma grows_when b (m : M unit) : grows P m -> grows P (when b m).
Proof. destruct b; simpl; auto using grows_ret. Qed.
Lemma grows_iterM {A} (f : A -> M unit) l : (forall a, grows P (f a)) -> grows P (iterM f l).
Proof. intros H. induction l; simpl; [apply grows_ret|]. apply grows_bind; auto. Qed.
Lemma grows_new_qubits n a : grows P (@new_qubits P a n).
Proof. intros w. rewrite new_qubits_run. apply mono_set_qubit. Qed.
Lemma grows_new_bits n a : grows P (@new_bits P a n).
Proof. intros w. rewrite new_bits_run. apply mono_set_bit. Qed.
Lemma grows_new_qubit l : grows P (@new_qubit P l).
Proof. intros w. apply mono_set_qubit. Qed.
Lemma grows_new_bit l : grows P (@new_bit P l).
Proof. intros w. apply mono_set_bit. Qed.
Lemma grows_qubit_exists a : grows P (@qubit_exists P a).
Proof. apply grows_eq. intros w. destruct a; cbn; auto. unfold mbind. destruct (nth_error (w_qubit w) i); cbn; auto. Qed.
Lemma grows_bit_exists a : grows P (@bit_exists P a).
Proof. apply grows_eq. intros w. destruct a; cbn; auto. unfold mbind. destruct (nth_error (w_bit w) i); cbn; auto. Qed.
Lemma grows_regget l s : grows P (@regget P l s).
Proof. apply grows_eq. intros w. unfold regget. destruct (dget label_eqb l (s_regs s)); cbn; auto. Qed.
Lemma grows_first_label s : grows P (@first_label P s).
Proof. apply grows_eq. intros w. unfold first_label. destruct (s_regs s) as [|[l r] rs]; cbn; auto. Qed.
Lemma grows_num_qubits c : grows P (@num_qubits P c).
Proof. apply grows_bind; [apply grows_qubits|]. intros. apply grows_ret. Qed.
Lemma grows_num_bits c : grows P (@num_bits P c).
Proof. apply grows_bind; [apply grows_bits|]. intros. apply grows_ret. Qed.

Ltac grow_step := first [ apply grows_ret | apply grows_raise | apply grows_lift
  | apply grows_read | apply grows_get_circ | apply grows_upd_circ | apply grows_new_qubits | apply grows_new_bits
  | apply grows_new_qubit | apply grows_new_bit | apply grows_num_qubits | apply grows_num_bits
  | apply grows_qubits | apply grows_bits | apply grows_qubit_exists | apply grows_bit_exists
  | apply grows_regget | apply grows_first_label | apply grows_when
  | match goal with |- grows _ (match ?b with _ => _ end) => destruct b end
  | apply grows_bind; [|intros ?] ].
Ltac grow := repeat grow_step.

Lemma grows_add_qregister c n l : grows P (@add_qregister P c n l).
Proof. unfold add_qregister. grow. Qed.
Lemma grows_add_cregister c n l : grows P (@add_cregister P c n l).
Proof. unfold add_cregister. grow. Qed.
Lemma grows_add_qubit c a l : grows P (@add_qubit P c a l).
Proof. unfold add_qubit. repeat (first [apply grows_add_qregister | grow_step]). Qed.
Lemma grows_add_bit c a l : grows P (@add_bit P c a l).
Proof. unfold add_bit. repeat (first [apply grows_add_cregister | grow_step]). Qed.

(** ** add_qregister, add_cregister *)

Definition qlabel (x : circ) (l : label) : label :=
  match l with LNone => LStr (String.append "qreg"%string (py_str (List.length (s_regs (c_q x))))) | _ => l end.
Definition clabel (x : circ) (l : label) : label :=
  match l with LNone => LStr (String.append "creg"%string (py_str (List.length (s_regs (c_b x))))) | _ => l end.

Lemma set_circ_twice (w : world) a b : set_circ (set_circ w a) b = set_circ w b.
Proof. reflexivity. Qed.

Lemma add_qregister_taken c n l (w : world) x r : nth_error (w_circ w) c = Some x ->
  dget label_eqb (qlabel x l) (s_regs (c_q x)) = Some r -> add_qregister c n l w = (w, Err ValueError).
Proof.
  intros E H. unfold add_qregister. rewrite (bind_ok _ _ _ _ _ _ (get_circ_some _ c w x E)).
  fold (qlabel x l). unfold regmem, dmem. now rewrite H.
Qed.
Lemma add_cregister_taken c n l (w : world) x r : nth_error (w_circ w) c = Some x ->
  dget label_eqb (clabel x l) (s_regs (c_b x)) = Some r -> add_cregister c n l w = (w, Err ValueError).
Proof.
  intros E H. unfold add_cregister. rewrite (bind_ok _ _ _ _ _ _ (get_circ_some _ c w x E)).
  fold (clabel x l). unfold regmem, dmem. now rewrite H.
Qed.

(** The circuit after a quantum register has been added. *)
Definition more_q (x : circ) (l : label) (r : register) : circ :=
  with_q x (mkSide (s_regs (c_q x) ++ [(l, r)]) None).
Definition more_b (x : circ) (l : label) (r : register) : circ :=
  with_b x (mkSide (s_regs (c_b x) ++ [(l, r)]) None).

Lemma add_qregister_run c n l (w : world) x :
  JQ P w -> small P w -> ssize_ok (zn (List.length (w_qubit w) + n) + 1) = true ->
  nth_error (w_circ w) c = Some x -> dget label_eqb (qlabel x l) (s_regs (c_q x)) = None ->
  exists k r, add_qregister c n l w =
    (set_circ (set_qubit w (w_qubit w ++ map (fun i => LStr (py_str i)) (seq k n)))
              (set_nth c (more_q x (qlabel x l) r) (w_circ w)), Ok tt) /\
    regok r /\ contents r = map IQubit (seq (List.length (w_qubit w)) n) /\ frozen_ r = Some false /\
    (s_cache (c_q x) = None \/ s_regs (c_q x) <> [] -> k = List.length (circuit_qubits x)).
Proof.
  intros Hj Sw Room E Hl.
  destruct (qubits_run P c w x Hj Sw E) as (rv & Ev & Rv & Gv & Kv & _).
  assert (Hs : ssize_ok (zn (List.length (map IQubit (seq (List.length (w_qubit w)) n))) + 1) = true).
  { rewrite map_length, seq_length. eapply ssize_le; [|exact Room]. lia. }
  destruct (new_register_seen (w_bit w) (map IQubit (seq (List.length (w_qubit w)) n))) as (r & Er & Rr & Cr & Fr).
  { eapply Forall_impl; [|apply gq_seq]. intros v. apply gq_prim. }
  { apply NoDup_map_seq. congruence. }
  { exact Hs. }
  rewrite seen_qubits in Cr.
  2: { eapply Forall_impl; [|apply gq_seq]. intros v (q & -> & _). now exists q. }
  exists (stop (core rv)), r.
  split; [|split; [exact Rr|split; [exact Cr|split; [exact Fr|]]]].
  2: { intros H. rewrite (stop_contents rv Rv), (Kv H). reflexivity. }
  unfold add_qregister. rewrite (bind_ok _ _ _ _ _ _ (get_circ_some _ c w x E)).
  fold (qlabel x l). unfold regmem, dmem. rewrite Hl.
  unfold num_qubits. rewrite (bind_ok P _ _ w (cached_q P w c x rv) (stop (core rv)))
    by (rewrite (bind_ok _ _ _ _ _ _ Ev); reflexivity).
  rewrite (bind_ok _ _ _ _ _ _ (new_qubits_run P n (stop (core rv)) (cached_q P w c x rv))).
  unfold read at 1. unfold mbind at 1. unfold lift. cbn [w_bit set_qubit cached_q set_circ w_qubit].
  unfold mbind at 1. rewrite Er. unfold put_qreg. unfold mbind at 1.
  assert (E1 : nth_error (set_nth c (with_q x (mkSide (s_regs (c_q x)) (Some rv))) (w_circ w)) c
               = Some (with_q x (mkSide (s_regs (c_q x)) (Some rv)))) by (eapply set_nth_same; eauto).
  rewrite (upd_circ_run _ _ _ _ (with_q x (mkSide (s_regs (c_q x)) (Some rv)))) by exact E1.
  cbv beta iota. unfold drop_qcache.
  erewrite upd_circ_run by (cbn; eapply set_nth_same; exact E1).
  cbn. rewrite !set_nth_set_nth. unfold more_q. rewrite (dset_absent _ label_eqb_spec) by exact Hl.
  reflexivity.
Qed.

Lemma seen_fresh_bits w k n : forall a m, List.length w = a - m -> m <= a ->
  seen_from (w ++ map (fun i => (LStr (py_str i), None)) (seq k n)) m (map IBit (seq (List.length w + m) n)) =
  map IBit (seq (List.length w + m) n).
Proof.
  intros a m _ _. apply seen_clear. intros i v Hi. rewrite nth_map in Hi.
  destruct (nth_error (seq (List.length w + m) n) i) as [q|] eqn:Eq; [|discriminate].
  simpl in Hi. injection Hi as <-. simpl.
  assert (Hq : List.length w <= q).
  { apply nth_error_In in Eq. apply in_seq in Eq. lia. }
  rewrite nth_error_app2 by exact Hq. rewrite nth_map.
  destruct (nth_error (seq k n) (q - List.length w)); reflexivity.
Qed.

Lemma add_cregister_run c n l (w : world) x :
  JB P w -> small P w -> ssize_ok (zn (List.length (w_bit w) + n) + 1) = true ->
  nth_error (w_circ w) c = Some x -> dget label_eqb (clabel x l) (s_regs (c_b x)) = None ->
  exists k r, add_cregister c n l w =
    (set_circ (set_bit w (w_bit w ++ map (fun i => (LStr (py_str i), None)) (seq k n)))
              (set_nth c (more_b x (clabel x l) r) (w_circ w)), Ok tt) /\
    regok r /\ contents r = map IBit (seq (List.length (w_bit w)) n) /\ frozen_ r = Some false /\
    (s_cache (c_b x) = None \/ s_regs (c_b x) <> [] -> k = List.length (circuit_bits x)).
Proof.
  intros Hj Sw Room E Hl.
  destruct (bits_run P c w x Hj Sw E) as (rv & _ & Ev & Rv & Kv & _ & Cv).
  set (k := stop (core rv)).
  assert (Hs : ssize_ok (zn (List.length (map IBit (seq (List.length (w_bit w)) n))) + 1) = true).
  { rewrite map_length, seq_length. eapply ssize_le; [|exact Room]. lia. }
  destruct (new_register_seen (w_bit w ++ map (fun i => (LStr (py_str i), None)) (seq k n))
              (map IBit (seq (List.length (w_bit w)) n))) as (r & Er & Rr & Cr & Fr).
  { eapply Forall_impl; [|apply gb_seq]. intros v. apply gb_prim. }
  { apply NoDup_map_seq. congruence. }
  { exact Hs. }
  pose proof (seen_fresh_bits (w_bit w) k n (List.length (w_bit w)) 0) as Hf.
  rewrite Nat.add_0_r in Hf. rewrite Hf in Cr by lia. clear Hf.
  exists k, r.
  split; [|split; [exact Rr|split; [exact Cr|split; [exact Fr|]]]].
  2: { intros H. unfold k. rewrite (stop_contents rv Rv). destruct (s_cache (c_b x)) as [r'|] eqn:Ec.
       - destruct H as [H|H]; [discriminate|]. pose proof (JB_nth _ _ _ _ Hj E) as [_ B].
         rewrite (Cv r' eq_refl). destruct (B r' Ec) as (_ & _ & K). rewrite (K H). reflexivity.
       - rewrite (Kv eq_refl), seen_from_length. reflexivity. }
  unfold add_cregister. rewrite (bind_ok _ _ _ _ _ _ (get_circ_some _ c w x E)).
  fold (clabel x l). unfold regmem, dmem. rewrite Hl.
  unfold num_bits. rewrite (bind_ok P _ _ w (cached_b P w c x rv) (stop (core rv)))
    by (rewrite (bind_ok _ _ _ _ _ _ Ev); reflexivity).
  fold k. rewrite (bind_ok _ _ _ _ _ _ (new_bits_run P n k (cached_b P w c x rv))).
  unfold read at 1. unfold mbind at 1. unfold lift. cbn [w_bit set_bit cached_b set_circ w_qubit].
  unfold mbind at 1. rewrite Er. unfold put_creg. unfold mbind at 1.
  assert (E1 : nth_error (set_nth c (with_b x (mkSide (s_regs (c_b x)) (Some rv))) (w_circ w)) c
               = Some (with_b x (mkSide (s_regs (c_b x)) (Some rv)))) by (eapply set_nth_same; eauto).
  rewrite (upd_circ_run _ _ _ _ (with_b x (mkSide (s_regs (c_b x)) (Some rv)))) by exact E1.
  cbv beta iota. unfold drop_bcache.
  erewrite upd_circ_run by (cbn; eapply set_nth_same; exact E1).
  cbn. rewrite !set_nth_set_nth. unfold more_b. rewrite (dset_absent _ label_eqb_spec) by exact Hl.
  reflexivity.
Qed.
End Add.

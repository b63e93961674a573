(** Two more invariants: bits that nobody sets stay unset; views are exact unless registers were dropped. *)
From Coq Require Import List ZArith String Bool Arith Lia.
From Verif Require Import Py RegisterModel RegisterSpec RegisterProofs WorldModel WorldSpec WorldReg WorldInv WorldInv2 WorldInv3 WorldInv4 WorldInv5 WorldInv6.
Import ListNotations.
Local Open Scope nat_scope.

Section More.
Variable P : Type.
Variable ptrue : P -> bool.
Variable peqb : P -> P -> bool.
Notation world := (world P).
Notation M := (M P).

(** ** Unset bits *)

Definition UB (w : world) : Prop := Forall (fun p => snd p = None) (w_bit w).

Lemma UB_value w : UB w -> forall b, bit_value P w b = None.
Proof.
  intros H b. unfold bit_value. destruct (nth_error (w_bit w) b) as [[l v]|] eqn:E; [|reflexivity].
  apply (Forall_nth _ _ _ _ H E).
Qed.
Lemma UB_clear_at w x : UB w -> clear_at P w x.
Proof. intros H i b _ v Hv. rewrite (UB_value w H) in Hv. discriminate. Qed.
Lemma UB_clear w : UB w -> clear P w.
Proof. intros H c x _ _. now apply UB_clear_at. Qed.
Lemma UB_same w w' : same P w w' -> UB w -> UB w'.
Proof. intros (_ & _ & _ & E). unfold UB. now rewrite E. Qed.

Lemma keepsU_eq {A} (m : M A) : grows P m -> (forall w, w_bit (fst (m w)) = w_bit w) -> keeps P UB m.
Proof. intros G H. split; [auto|]. intros w _. unfold UB. now rewrite H. Qed.

Lemma keepsU_qubits c : keeps P UB (@qubits P c).
Proof.
  apply keepsU_eq; [apply grows_qubits|]. intros w. destruct (qubits_any P c w) as [->|(x & r & _ & ->)]; reflexivity.
Qed.
Lemma keepsU_bits c : keeps P UB (@bits P c).
Proof.
  apply keepsU_eq; [apply grows_bits|]. intros w. destruct (bits_any P c w) as [->|(x & r & _ & ->)]; reflexivity.
Qed.
Lemma keepsU_upd_circ c f : keeps P UB (@upd_circ P c f).
Proof.
  apply keepsU_eq; [apply grows_upd_circ|]. intros w. unfold upd_circ, mbind, get_circ.
  destruct (nth_error (w_circ w) c); reflexivity.
Qed.
Lemma keepsU_new_qubits n a : keeps P UB (@new_qubits P a n).
Proof. apply keepsU_eq; [apply grows_new_qubits|]. intros w. now rewrite new_qubits_run. Qed.
Lemma keepsU_new_qubit l : keeps P UB (@new_qubit P l).
Proof. apply keepsU_eq; [apply grows_new_qubit|]. reflexivity. Qed.
Lemma keepsU_new_bits n a : keeps P UB (@new_bits P a n).
Proof.
  split; [apply grows_new_bits|]. intros w _ H. rewrite new_bits_run. unfold UB. cbn. apply Forall_app.
  split; [exact H|]. apply Forall_forall. intros p Hp. apply in_map_iff in Hp. destruct Hp as (i & <- & _). reflexivity.
Qed.
Lemma keepsU_new_bit l : keeps P UB (@new_bit P l).
Proof.
  split; [apply grows_new_bit|]. intros w _ H. unfold UB. cbn. apply Forall_app. split; [exact H|auto].
Qed.
Lemma keepsU_bit_reset b : keeps P UB (@bit_reset P b).
Proof.
  split; [apply grows_bit_reset|]. intros w _ H. unfold bit_reset.
  destruct (nth_error (w_bit w) b) as [[l v]|]; [|exact H]. apply set_nth_Forall; auto.
Qed.
Lemma keepsU_exists_q a : keeps P UB (@qubit_exists P a).
Proof.
  apply keepsU_eq; [apply grows_qubit_exists|]. intros w. destruct a; cbn; auto.
  unfold mbind. destruct (nth_error (w_qubit w) i); reflexivity.
Qed.
Lemma keepsU_exists_b a : keeps P UB (@bit_exists P a).
Proof.
  apply keepsU_eq; [apply grows_bit_exists|]. intros w. destruct a; cbn; auto.
  unfold mbind. destruct (nth_error (w_bit w) i); reflexivity.
Qed.

Ltac ku_step := first
  [ apply keeps_ret; exact UB_same | apply keeps_raise; exact UB_same | apply keeps_lift; exact UB_same
  | apply keeps_read; exact UB_same | apply keeps_get_circ; exact UB_same
  | apply keepsU_qubits | apply keepsU_bits | apply keepsU_new_qubits | apply keepsU_new_bits
  | apply keepsU_new_qubit | apply keepsU_new_bit | apply keepsU_bit_reset | apply keepsU_upd_circ
  | apply keepsU_exists_q | apply keepsU_exists_b
  | apply keeps_when; [exact UB_same|] | apply keeps_iterM; [exact UB_same|intros ?]
  | match goal with |- keeps _ _ (match ?b with _ => _ end) => destruct b end
  | apply keeps_bind; [|intros ?] ].

Lemma keepsU_add_qregister c n l : keeps P UB (@add_qregister P c n l).
Proof. unfold add_qregister. cbv zeta. repeat ku_step. Qed.
Lemma keepsU_add_cregister c n l : keeps P UB (@add_cregister P c n l).
Proof. unfold add_cregister. cbv zeta. repeat ku_step. Qed.
Lemma keepsU_append (x : circ) : keeps P UB (fun w => (set_circ w (w_circ w ++ [x]), Ok tt)).
Proof. apply keepsU_eq; [apply grows_eq; auto|reflexivity]. Qed.

Lemma UB_call x : no_bit_set P x -> keeps P UB (do_call ptrue peqb x).
Proof.
  intros Hn. destruct (plain_call P x) eqn:E.
  - apply (k_do_call P ptrue peqb UB UB_same keepsU_qubits keepsU_bits); auto.
  - destruct x; try discriminate E; simpl in Hn; try contradiction; cbn [do_call];
      unfold unit_of, new_circuit, add_qubit, add_bit, qreg_add, creg_add, qreg_freeze, creg_freeze, reset, unlock,
        first_label, regget, item_reset;
      repeat first [apply keepsU_add_qregister | apply keepsU_add_cregister | apply keepsU_append | ku_step].
Qed.


Lemma quiet_call w x : quiet_ok P w x -> small P (fst (do_call ptrue peqb x w)) -> IB P w /\ UB w ->
  IB P (fst (do_call ptrue peqb x w)) /\ UB (fst (do_call ptrue peqb x w)).
Proof.
  intros [Ho Hn] S [Hi Hu].
  assert (Hu' : UB (fst (do_call ptrue peqb x w))) by now apply UB_call.
  split; [|exact Hu']. apply IB_call; auto. split; [exact Ho|]. split.
  - destruct x as [| | | | |c a l| | | | | | | | | | | | | | | | | | | | | | | | | | | | | | | | |]; simpl; auto.
    destruct a; auto. rewrite (UB_value w Hu). discriminate.
  - split; [destruct x; simpl; auto; intros; now apply UB_clear_at|]. unfold leaves_clear. now apply UB_clear.
Qed.

Lemma quiet_same w w' : same P w w' -> IB P w /\ UB w -> IB P w' /\ UB w'.
Proof. intros H [A B]. split; [eapply IB_same; eauto|eapply UB_same; eauto]. Qed.

Lemma keeps_and (I K : world -> Prop) {A} (m : M A) : keeps P I m -> keeps P K m -> keeps P (fun w => I w /\ K w) m.
Proof. intros [G H1] [_ H2]. split; [auto|]. intros w S [A1 A2]. auto. Qed.

Theorem quiet_reach v : reaches P ptrue peqb (quiet_ok P) v -> small P v -> IB P v /\ UB v.
Proof.
  intros (ks & p & He & Hv) S.
  apply (run_visits P ptrue peqb (fun w => IB P w /\ UB w)) with (ok := quiet_ok P) (p := p) (w := start P ks); auto.
  - apply quiet_same.
  - intros c. apply keeps_and; [apply keepsB_qubits|apply keepsU_qubits].
  - intros c. apply keeps_and; [apply keepsB_bits|apply keepsU_bits].
  - apply grows_do_call.
  - apply quiet_call.
  - split; [apply IB_start|]. constructor.
Qed.

(** ** Views of circuits without registers *)

Definition okS (s : side) : Prop := forall r, s_cache s = Some r -> s_regs s = [] -> contents r = [].
Definition okC (x : circ) : Prop := okS (c_q x) /\ okS (c_b x).
Definition SV (w : world) : Prop := Forall okS (map c_q (w_circ w)) /\ Forall okS (map c_b (w_circ w)).

Lemma SV_same w w' : same P w w' -> SV w -> SV w'.
Proof. intros (E1 & E2 & _). unfold SV. now rewrite E1, E2. Qed.

Lemma keepsS_eq {A} (m : M A) : grows P m -> (forall w, w_circ (fst (m w)) = w_circ w) -> keeps P SV m.
Proof. intros G H. split; [auto|]. intros w _. unfold SV. now rewrite H. Qed.

Lemma SV_put (w : world) c x y : SV w -> nth_error (w_circ w) c = Some x -> (okC x -> okC y) ->
  SV (set_circ w (set_nth c y (w_circ w))).
Proof.
  intros [A B] E H. assert (Hx : okC x).
  { split; [apply (Forall_nth _ _ c _ A)|apply (Forall_nth _ _ c _ B)]; now rewrite nth_map, E. }
  destruct (H Hx) as [H1 H2]. unfold SV. cbn. rewrite !set_nth_map. split; apply set_nth_Forall; auto.
Qed.

Lemma keepsS_upd_circ c f : (forall x, okC x -> okC (f x)) -> keeps P SV (@upd_circ P c f).
Proof.
  intros H. split; [apply grows_upd_circ|]. intros w _ Hj. destruct (nth_error (w_circ w) c) as [x|] eqn:E.
  - rewrite (upd_circ_run _ c f w x E). cbn [fst]. eapply SV_put; eauto.
  - unfold upd_circ. rewrite (bind_err _ _ _ _ _ _ (get_circ_none _ c w E)). exact Hj.
Qed.

Lemma dset_nonempty l (r : register) rs : dset label_eqb l r rs <> [].
Proof. destruct rs as [|[k s] rs]; simpl; [discriminate|]. destruct (label_eqb l k); discriminate. Qed.

Lemma concat_empty bs s r : s_regs s = [] -> concat_regs bs s = Ok r -> contents r = [].
Proof. intros E. unfold concat_regs. rewrite E. simpl. intros [= <-]. reflexivity. Qed.

Lemma keepsS_qubits c : keeps P SV (@qubits P c).
Proof.
  split; [apply grows_qubits|]. intros w _ Hj. unfold qubits.
  destruct (nth_error (w_circ w) c) as [x|] eqn:E;
    [rewrite (bind_ok _ _ _ _ _ _ (get_circ_some _ c w x E))
    |rewrite (bind_err _ _ _ _ _ _ (get_circ_none _ c w E)); exact Hj].
  destruct (s_cache (c_q x)); [exact Hj|]. unfold read, lift, mbind.
  destruct (concat_regs (w_bit w) (c_q x)) as [r|e] eqn:Er; [|exact Hj]. cbn [fst put_circ ret].
  eapply SV_put; eauto. intros [H1 H2]. split; [|exact H2]. intros r' Hr Hn. cbn in Hr, Hn. injection Hr as <-.
  eapply concat_empty; eauto.
Qed.
Lemma keepsS_bits c : keeps P SV (@bits P c).
Proof.
  split; [apply grows_bits|]. intros w _ Hj. unfold bits.
  destruct (nth_error (w_circ w) c) as [x|] eqn:E;
    [rewrite (bind_ok _ _ _ _ _ _ (get_circ_some _ c w x E))
    |rewrite (bind_err _ _ _ _ _ _ (get_circ_none _ c w E)); exact Hj].
  destruct (s_cache (c_b x)); [exact Hj|]. unfold read, lift, mbind.
  destruct (concat_regs (w_bit w) (c_b x)) as [r|e] eqn:Er; [|exact Hj]. cbn [fst put_circ ret].
  eapply SV_put; eauto. intros [H1 H2]. split; [exact H1|]. intros r' Hr Hn. cbn in Hr, Hn. injection Hr as <-.
  eapply concat_empty; eauto.
Qed.

Lemma keepsS_put_qreg c l r : keeps P SV (@put_qreg P c l r).
Proof. apply keepsS_upd_circ. intros x [H1 H2]. split; [|exact H2]. intros r' _ Hn. now apply dset_nonempty in Hn. Qed.
Lemma keepsS_put_creg c l r : keeps P SV (@put_creg P c l r).
Proof. apply keepsS_upd_circ. intros x [H1 H2]. split; [exact H1|]. intros r' _ Hn. now apply dset_nonempty in Hn. Qed.
Lemma keepsS_drop_q c : keeps P SV (@drop_qcache P c).
Proof. apply keepsS_upd_circ. intros x [H1 H2]. split; [|exact H2]. intros r' Hr. discriminate. Qed.
Lemma keepsS_drop_b c : keeps P SV (@drop_bcache P c).
Proof. apply keepsS_upd_circ. intros x [H1 H2]. split; [exact H1|]. intros r' Hr. discriminate. Qed.
Lemma keepsS_new_qubits n a : keeps P SV (@new_qubits P a n).
Proof. apply keepsS_eq; [apply grows_new_qubits|]. intros w. now rewrite new_qubits_run. Qed.
Lemma keepsS_new_bits n a : keeps P SV (@new_bits P a n).
Proof. apply keepsS_eq; [apply grows_new_bits|]. intros w. now rewrite new_bits_run. Qed.
Lemma keepsS_new_qubit l : keeps P SV (@new_qubit P l).
Proof. apply keepsS_eq; [apply grows_new_qubit|]. reflexivity. Qed.
Lemma keepsS_new_bit l : keeps P SV (@new_bit P l).
Proof. apply keepsS_eq; [apply grows_new_bit|]. reflexivity. Qed.
Lemma keepsS_bit_reset b : keeps P SV (@bit_reset P b).
Proof.
  apply keepsS_eq; [apply grows_bit_reset|]. intros w. unfold bit_reset.
  destruct (nth_error (w_bit w) b) as [[l v]|]; reflexivity.
Qed.
Lemma keepsS_bit_set b v f : keeps P SV (@bit_set P b v f).
Proof.
  apply keepsS_eq; [apply grows_bit_set|]. intros w. unfold bit_set.
  destruct (nth_error (w_bit w) b) as [[l o]|]; [|reflexivity]. destruct o; [destruct f|]; reflexivity.
Qed.
Lemma keepsS_exists_q a : keeps P SV (@qubit_exists P a).
Proof.
  apply keepsS_eq; [apply grows_qubit_exists|]. intros w. destruct a; cbn; auto.
  unfold mbind. destruct (nth_error (w_qubit w) i); reflexivity.
Qed.
Lemma keepsS_exists_b a : keeps P SV (@bit_exists P a).
Proof.
  apply keepsS_eq; [apply grows_bit_exists|]. intros w. destruct a; cbn; auto.
  unfold mbind. destruct (nth_error (w_bit w) i); reflexivity.
Qed.
Lemma keepsS_append par : keeps P SV
  (fun w => (set_circ w (w_circ w ++ [mkCirc [] (mkSide [] None) (mkSide [] None) false None par [] false]), Ok tt)).
Proof.
  split; [apply grows_eq; auto|]. intros w _ [A B]. unfold SV. cbn. rewrite !map_app.
  split; apply Forall_app; split; auto; constructor; auto; intros r Hr; discriminate.
Qed.

Lemma keepsS_unlock c : keeps P SV (@unlock P c).
Proof. apply (k_unlock P SV SV_same). Qed.

Ltac ks_step := first
  [ apply keeps_ret; exact SV_same | apply keeps_raise; exact SV_same | apply keeps_lift; exact SV_same
  | apply keeps_read; exact SV_same | apply keeps_get_circ; exact SV_same
  | apply keepsS_qubits | apply keepsS_bits | apply keepsS_new_qubits | apply keepsS_new_bits
  | apply keepsS_new_qubit | apply keepsS_new_bit | apply keepsS_bit_reset | apply keepsS_bit_set
  | apply keepsS_put_qreg | apply keepsS_put_creg | apply keepsS_drop_q | apply keepsS_drop_b
  | apply keepsS_exists_q | apply keepsS_exists_b | apply keepsS_append
  | apply keeps_when; [exact SV_same|] | apply keeps_iterM; [exact SV_same|intros ?]
  | match goal with |- keeps _ _ (match ?b with _ => _ end) => destruct b end
  | apply keeps_upd_circ; [exact SV_same|intros ?; reflexivity|intros ?; reflexivity]
  | apply keeps_bind; [|intros ?] ].

Lemma keepsS_add_qregister c n l : keeps P SV (@add_qregister P c n l).
Proof. unfold add_qregister. cbv zeta. repeat ks_step. Qed.
Lemma keepsS_add_cregister c n l : keeps P SV (@add_cregister P c n l).
Proof. unfold add_cregister. cbv zeta. repeat ks_step. Qed.

Lemma SV_call x : keeps_registers P x -> keeps P SV (do_call ptrue peqb x).
Proof.
  intros Hn. destruct (plain_call P x) eqn:E.
  - apply (k_do_call P ptrue peqb SV SV_same keepsS_qubits keepsS_bits); auto.
  - destruct x; try discriminate E; cbn [do_call];
      try (unfold unit_of, new_circuit, add_qubit, add_bit, qreg_add, creg_add, qreg_freeze, creg_freeze,
        first_label, regget;
      repeat first [apply keepsS_add_qregister | apply keepsS_add_cregister | ks_step]; fail).
    destruct keep; [|contradiction]. unfold reset, item_reset. repeat first [apply keepsS_unlock | ks_step].
Qed.

Theorem SV_reach v : reaches P ptrue peqb (fun _ x => keeps_registers P x) v -> small P v -> SV v.
Proof.
  intros (ks & p & He & Hv) S.
  apply (run_visits P ptrue peqb SV) with (ok := fun _ x => keeps_registers P x) (p := p) (w := start P ks); auto.
  - exact SV_same.
  - exact keepsS_qubits.
  - exact keepsS_bits.
  - apply grows_do_call.
  - intros w x Hk. now apply SV_call.
  - split; constructor.
Qed.

(** Weaker conditions on the calls. *)
Lemma executes_impl (a b : world -> call P -> Prop) : (forall w x, a w x -> b w x) ->
  forall p w, executes P ptrue peqb a p w -> executes P ptrue peqb b p w.
Proof.
  intros H p. induction p; simpl; intros w He; auto.
  - destruct He as [H1 H2]. split; [auto|]. destruct (run ptrue peqb p1 w) as [w' [u|e]]; auto.
  - match type of He with (let (_, _) := ?m w in _) => destruct (m w) as [w' [u|e]]; auto end.
  - destruct (set_frozen _ _ w) as [w' [u|e]]; auto.
Qed.
Lemma reaches_impl (a b : world -> call P -> Prop) v : (forall w x, a w x -> b w x) ->
  reaches P ptrue peqb a v -> reaches P ptrue peqb b v.
Proof. intros H (ks & p & He & Hv). exists ks, p. split; [|exact Hv]. eapply executes_impl; eauto. Qed.
End More.

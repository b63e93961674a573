(** Loading a module, continued. *)
From Coq Require Import List ZArith String Bool Arith Lia.
From Verif Require Import Py QirModel QirSpec LinkModel RegisterModel RegisterSpec RegisterProofs WorldModel WorldSpec WorldSpec4 WorldReg WorldInv WorldInv2 WorldInv3 WorldInv4 WorldInv5 WorldInv6 WorldInv7 WorldWf2 WorldOps ExportSpec LoadModel LoadSpec LoadProofs LoadProofs2 LoadProofs3 LoadProofs4 LoadProofs5 LoadProofs6 LoadProofs7 LoadProofs8.
Import ListNotations.
Local Open Scope nat_scope.

Section Steps.
Variable P : Type.
Variable ptrue : P -> bool.
Variable peqb : P -> P -> bool.
Variable more : list cls.
Notation world := (world P).
Notation M := (WorldModel.M P).
Notation ended := (ended P ptrue peqb more).

(** ** What is asked for *)
Lemma maxi_lt N l : 0 < N -> Forall (fun j => j < N) l -> S (maxi l) <= N.
Proof. intros H. induction 1 as [|j l Hj F IH]; cbn; [lia|]. unfold maxi in IH. lia. Qed.
Lemma maxi_lt_inv N l : S (maxi l) <= N -> Forall (fun j => j < N) l.
Proof. intros H. apply Forall_forall. intros j Hj. apply maxi_le in Hj. lia. Qed.
Lemma maxi_in l : l <> [] -> In (maxi l) l.
Proof.
  induction l as [|j l IH]; [contradiction|]. intros _. destruct l as [|i l]; [left; cbn; lia|].
  assert (H : In (maxi (i :: l)) (i :: l)) by (apply IH; discriminate). change (maxi (j :: i :: l)) with (Nat.max j (maxi (i :: l))).
  destruct (Nat.max_spec j (maxi (i :: l))) as [[_ ->]|[_ ->]]; [now right|now left].
Qed.
Lemma below_wide N k : 0 < N -> below P N k -> wide P N k.
Proof. destruct k as [u args]. intros H [B _]. now apply maxi_lt. Qed.
Lemma asks_below w ks gs mq mb e N : asks P w ks gs mq mb e -> Forall (below P N) ks -> Forall (fun j => j < N) mq /\ Forall (fun j => j < N) mb.
Proof.
  induction 1; intros F; auto; inversion F as [|? ? F1 F2]; subst; auto. destruct (IHasks F2). destruct F1. split; apply Forall_app; auto.
Qed.

Lemma library_wants : Forall (fun x => match k_kind x with KPlain | KParam => nonzero (k_numq x) = true | _ => True end) library_classes.
Proof. repeat constructor. Qed.
Lemma named_wants (w : world) n kx np : ended w -> named_class P w n kx -> refusal kx np 0 <> None.
Proof.
  intros E (k & x & H1 & H2 & H3). destruct (ended_class P ptrue peqb more w k x E H1) as (kx' & H4 & (S1 & S2 & S3 & S4 & S5 & S6)). rewrite H3 in H4. injection H4 as <-.
  pose proof library_wants as L. rewrite Forall_forall in L. specialize (L x (nth_error_In _ _ H1)). unfold refusal, miscounted. rewrite S2.
  assert (Z : nonzero (k_numq x) = true -> k_numq kx <> None /\ k_numq kx <> Some 0).
  { intros Hz. destruct S6 as [->|(_ & H & _)]; [destruct (k_numq x) as [[|]|]; easy|congruence]. }
  destruct (k_kind x).
  - destruct (Nat.eqb np 0); [|discriminate]. destruct (Z L). destruct (k_numq kx) as [[|]|]; [contradiction|discriminate|contradiction].
  - destruct (Nat.eqb np 1); [|discriminate]. destruct (k_nparams kx) as [[|[|]]|]; try discriminate. destruct (Z L). destruct (k_numq kx) as [[|]|]; [contradiction|discriminate|contradiction].
  - destruct (Nat.leb np 2); cbn; discriminate.
  - destruct (_ && _)%bool; [|discriminate]. destruct (k_nparams kx) as [[|[|]]|]; cbn; discriminate.
  - discriminate.
Qed.
Lemma asks_places (w : world) ks gs mq mb e : ended w -> asks P w ks gs mq mb e -> Forall (fun g => snd g <> []) gs.
Proof.
  intros E. induction 1; auto. constructor; auto. cbn. intros H4. rewrite H4 in H2. exact (named_wants w n kx _ E H1 H2).
Qed.
Lemma needed_spec gs k : Forall (fun g : gate P => snd g <> []) gs -> k < needed P gs <-> exists g j, In g gs /\ In j (snd g) /\ k <= j.
Proof.
  induction 1 as [|g gs Hg F IH].
  - split; [cbn; lia|]. intros (g & j & [] & _).
  - change (needed P (g :: gs)) with (Nat.max (S (maxi (snd g))) (needed P gs)). rewrite Nat.max_lt_iff, IH. cbn [In]. split.
    + intros [H|(g' & j & H1 & H2)]; [exists g, (maxi (snd g)); split; [now left|]; split; [now apply maxi_in|lia]|exists g', j; auto].
    + intros (g' & j & [<-|H1] & H2 & H3); [left; apply maxi_le in H2; lia|right; eauto].
Qed.

(** ** Modules *)
Lemma below_ssize n j : ssize_ok (zn n + 1) = true -> j < n -> ssize_ok (zn j) = true.
Proof. unfold ssize_ok. rewrite !andb_true_iff, !Z.leb_le, !Z.ltb_lt. lia. Qed.
Lemma ssize_le n m : ssize_ok (zn n + 1) = true -> m <= n -> ssize_ok (zn m + 1) = true.
Proof. unfold ssize_ok. rewrite !andb_true_iff, !Z.leb_le, !Z.ltb_lt. lia. Qed.
Lemma holds_gates_mono c (w : world) x w' x' gs ps os : loaded P c w x w' x' os -> Forall2 (holds_gate P w x) gs ps -> Forall2 (holds_gate P w' x') gs ps.
Proof. intros L. apply F2_impl. intros g o. exact (holds_gate_mono P c w x w' x' g o os L). Qed.

Lemma module_step c (w : world) x fs gs mq mb e N : ended w -> idle P w c x -> asks P w (calls_read P fs) gs mq mb e -> 0 < N ->
  Forall (below P N) (calls_read P fs) -> roomy (c_q x) N -> roomy (c_b x) N -> clear_at P w x ->
  ssize_ok (zn (List.length (w_qubit w) + N + N) + 1) = true -> ssize_ok (zn (List.length (w_bit w) + N) + 1) = true ->
  exists w' x' os r, load_module P ptrue fs (Some c) w = (w', r) /\ ended w' /\ idle P w' c x' /\ loaded P c w x w' x' os /\
    loads P w' x' c gs mq mb e os r /\
    (e = None -> (forall k, k < List.length (circuit_qubits x') <-> k < List.length (circuit_qubits x) \/ exists g j, In g gs /\ In j (snd g) /\ k <= j)) /\
    (r = Ok c -> mq <> [] -> List.length (circuit_bits x') = Nat.max (List.length (circuit_bits x)) (S (maxi mb))) /\
    (mq = [] -> circuit_bits x' = circuit_bits x).
Proof.
  intros E I A HN B Fq Fb Ca S1 S2.
  destruct (calls_step P ptrue peqb more c w _ gs mq mb e A w x ([], []) N eq_refl E I) as (w1 & x1 & os & R & E1 & I1 & L1 & G & B1 & W1 & N1 & K1); auto.
  { eapply Forall_impl; [|exact B]. intros k. now apply below_wide. }
  { eapply ssize_le; [exact S1|]. lia. }
  { eapply ssize_le; [exact S2|]. lia. }
  assert (Ebits : circuit_bits x1 = circuit_bits x) by (unfold circuit_bits; now rewrite B1).
  assert (Size : e = None -> forall k, k < List.length (circuit_qubits x1) <-> k < List.length (circuit_qubits x) \/ exists g j, In g gs /\ In j (snd g) /\ k <= j).
  { intros He k. rewrite (K1 He), Nat.max_lt_iff, (needed_spec gs k (asks_places w _ _ _ _ _ E A)). reflexivity. }
  assert (Mod : load_module P ptrue fs (Some c) w = match e with Some e => (w1, Err e) | None => (let! _ := (match mq with [] => ret tt | _ => load_measurements P ptrue c mq mb end) in ret c) w1 end).
  { unfold load_module, mbind at 1, ret at 1. unfold mbind at 1. rewrite (funcs_calls P ptrue c fs ([], []) w), R. cbn [app fst snd]. destruct e; reflexivity. }
  destruct e as [e|].
  - exists w1, x1, os, (Err e). split; [exact Mod|]. split; [exact E1|]. split; [exact I1|]. split; [exact L1|]. split; [now constructor|]. split; [discriminate|]. split; [discriminate|auto].
  - destruct mq as [|m mq'] eqn:Em.
    + exists w1, x1, os, (Ok c). split; [exact Mod|]. split; [exact E1|]. split; [exact I1|]. split; [exact L1|]. split; [now constructor|]. split; [exact Size|]. split; [contradiction|auto].
    + rewrite <- Em in *. assert (Hm : mq <> []) by (rewrite Em; discriminate).
      destruct (asks_below w _ gs mq mb None N A B) as [Bq Bb].
      assert (Grow : List.length (w_qubit w1) + List.length (circuit_qubits x) = List.length (w_qubit w) + List.length (circuit_qubits x1)).
      { destruct L1 as [_ _ (ls & H1 & H2) _ _ _ _ _ _ _]. rewrite H1, H2, !app_length, map_length, seq_length. lia. }
      destruct (meas_step P ptrue peqb more c w1 x1 mq mb E1 I1) as (w2 & x2 & os2 & r & R2 & E2 & I2 & L2 & Q2 & N2 & Res).
      { assert (Hb : S (maxi mb) <= N) by now apply maxi_lt.
        destruct Fb as [Fb|Fb]; [left|right; fold (circuit_bits x) in Fb; rewrite Ebits; lia]. split; [unfold fits in *; now rewrite B1|].
        intros i b. rewrite Ebits. unfold bit_value. rewrite W1. apply Ca. }
      { eapply ssize_le; [exact S1|]. lia. }
      { rewrite W1. eapply ssize_le; [exact S2|]. pose proof (maxi_lt N mb HN Bb). lia. }
      { eapply Forall_impl; [|exact Bq]. cbn. intros j Hj. eapply below_ssize; [exact S1|]. lia. }
      assert (Mod2 : load_module P ptrue fs (Some c) w = (w2, match r with Ok _ => Ok c | Err e => Err e end)).
      { rewrite Mod. rewrite Em at 1. rewrite <- Em. cbv match. unfold mbind at 1. rewrite R2. destruct r; reflexivity. }
      exists w2, x2, (os ++ os2), (match r with Ok _ => Ok c | Err e => Err e end). split; [exact Mod2|]. split; [exact E2|]. split; [exact I2|]. split; [exact (loaded_trans P c _ _ _ _ _ _ _ _ L1 L2)|].
      pose proof (holds_gates_mono c _ _ _ _ _ _ _ L2 G) as G2.
      split; [|split; [rewrite Q2; exact Size|split; [rewrite N2, Ebits; auto|contradiction]]].
      destruct Res as [(X & -> & ->)|[(X & Hl & -> & o & -> & Ho)|(X & Hl & -> & o & -> & Ho)]].
      * rewrite app_nil_r. apply Exists_exists in X. destruct X as (j & Hj & Hk). apply loads_missing with j; [exact Hj|now rewrite Q2|exact G2].
      * apply loads_few_bits; auto. now rewrite Q2.
      * apply loads_measurement; auto. now rewrite Q2.
Qed.

Lemma new_step (w : world) : ended w -> w_active w = None -> w_exit w = [] -> small P w ->
  ended (one_more P w) /\ idle P (one_more P w) (List.length (w_circ w)) empty_circuit /\ new_circuit false None None w = (one_more P w, Ok (List.length (w_circ w))).
Proof.
  intros E Ha Hx Sm.
  assert (Nth : nth_error (w_circ (one_more P w)) (List.length (w_circ w)) = Some empty_circuit).
  { unfold one_more, set_circ. cbn [w_circ]. rewrite nth_error_app2, Nat.sub_diag by auto. reflexivity. }
  assert (R : new_circuit false None None w = (one_more P w, Ok (List.length (w_circ w)))) by reflexivity.
  split; [|split; [|exact R]].
  - assert (Ew : fst (run ptrue peqb (Do (CNew P false None None)) w) = one_more P w) by reflexivity.
    rewrite <- Ew. apply ended_run; [exact E|]. cbn [executes]. split; [now apply own_any|]. repeat (split; [exact Logic.I|]).
    unfold leaves_clear. change (fst (do_call ptrue peqb (CNew P false None None) w)) with (one_more P w).
    destruct (ended_inv P ptrue peqb more w E Sm) as (_ & _ & C & _). intros c x Hc Hn. unfold one_more, set_circ in Hc. cbn [w_circ] in Hc.
    destruct (Nat.lt_ge_cases c (List.length (w_circ w))) as [H|H].
    + rewrite nth_error_app1 in Hc by auto. exact (C c x Hc Hn).
    + rewrite nth_error_app2 in Hc by auto. destruct (c - List.length (w_circ w)) as [|k]; cbn in Hc; [|destruct k; discriminate]. injection Hc as <-. intros i b Hi. destruct i; discriminate.
  - constructor; auto. discriminate.
Qed.
Lemma module_new (w : world) fs : load_module P ptrue fs None w = load_module P ptrue fs (Some (List.length (w_circ w))) (one_more P w).
Proof. reflexivity. Qed.
End Steps.

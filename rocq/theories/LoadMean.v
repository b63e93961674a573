(** Loading a program of QIR's base profile gives a circuit that does what the program does. *)
From Coq Require Import List ZArith NArith String Bool Arith Reals Lia.
From Verif Require Import Py CRing Cplx SimModel SimSpec SimReal SimProofs SimProofs2 GateModel StateModel QirModel QirSpec QirSemSpec QirMeantSpec QirSemProofs QirSemProofs2 QirSemProofs3
  RegisterModel RegisterSpec RegisterProofs WorldModel WorldSpec WorldSpec4 WorldReg WorldInv WorldInv2 WorldInv6 WorldWf2 LinkModel LinkSpec LinkProofs ExportModel ExportSpec ExportProofs ExportProofs2
  LoadModel LoadSpec LoadMeanSpec LoadProofs LoadProofs2 LoadProofs3 LoadProofs4 LoadProofs5 LoadProofs6 LoadProofs7 LoadProofs8 LoadProofs9.
Import ListNotations.
Local Open Scope nat_scope.

(** ** Base profile functions and the library's classes *)
Record base_class (f : string) (ps : list R) (ctrl : bool) (nm : string) (k : nat) (kx : cls) : Prop := {
  bc_fun : In (nm, f) function_of;
  bc_extra : ~ In nm QirSpec.extra;
  bc_meas : nm <> "Measurement"%string;
  bc_class : nth_error library_classes k = Some kx;
  bc_name : k_name kx = nm;
  bc_kind : k_kind kx <> KMeas;
  bc_ctrl : controlled kx -> ctrl = true;
  bc_par : firstn (match k_nparams kx with Some m => m | None => 0 end) ps = ps;
  bc_has : has_params (k_kind kx) = true -> ps <> [];
  bc_ok : forall kx', same_cls kx kx' -> refusal kx' (List.length ps) (if ctrl then 2 else 1) = None
}.
Lemma base_has f ps ctrl m : base_gate f ps = Some (ctrl, m) -> exists nm k kx, base_class f ps ctrl nm k kx.
Proof.
  intros H. unfold base_gate in H.
  Local Ltac found_class nm k := exists nm, k; eexists; constructor;
    [cbn; tauto|cbn; intuition discriminate|discriminate|reflexivity|reflexivity|discriminate
    |first [reflexivity|intros [H|H]; discriminate H]|reflexivity|first [discriminate|cbn; intros H; discriminate H]
    |intros kx' (S1 & S2 & S3 & S4 & S5 & S6); unfold refusal, miscounted; rewrite S2, S5;
     destruct S6 as [->|([S6|S6] & _ & n1 & n2 & A & B & ->)]; try discriminate S6; cbn [k_kind k_numq k_nparams k_ncontrol k_ntarget] in *; try reflexivity; try (injection A as <-; injection B as <-; reflexivity)].
  destruct ps as [|a [|a' ps]]; [| |discriminate].
  - repeat (match type of H with context [String.eqb f ?s] => destruct (String.eqb_spec f s) as [->|_] end; [injection H as <- _|]); [..|discriminate].
    + found_class "X"%string 1.
    + found_class "Y"%string 2.
    + found_class "Z"%string 3.
    + found_class "Hadamard"%string 4.
    + found_class "S"%string 5.
    + found_class "T"%string 6.
    + found_class "CX"%string 11.
    + found_class "CZ"%string 13.
  - repeat (match type of H with context [String.eqb f ?s] => destruct (String.eqb_spec f s) as [->|_] end; [injection H as <- _|]); [..|discriminate].
    + found_class "RX"%string 7.
    + found_class "RY"%string 8.
    + found_class "RZ"%string 9.
Qed.

(** ** What the program asks for *)
Lemma places_gate ps qs : doubles R (map (CDouble R) ps ++ map (CQubit R) qs) = ps /\ places R (map (CDouble R) ps ++ map (CQubit R) qs) = qs /\ results R (map (CDouble R) ps ++ map (CQubit R) qs) = [].
Proof.
  unfold doubles, places, results. rewrite !flat_map_app.
  assert (A : forall l, flat_map (fun a => match a with CDouble _ d => [d] | _ => [] end) (map (CDouble R) l) = l) by (induction l; cbn; congruence).
  assert (B : forall l, flat_map (fun a => match a with CDouble _ d => [d] | _ => [] end) (map (CQubit R) l) = []) by (induction l; cbn; congruence).
  assert (A' : forall l, flat_map (fun a => match a with CQubit _ d => [d] | _ => [] end) (map (CDouble R) l) = []) by (induction l; cbn; congruence).
  assert (B' : forall l, flat_map (fun a => match a with CQubit _ d => [d] | _ => [] end) (map (CQubit R) l) = l) by (induction l; cbn; congruence).
  assert (A2 : forall l, flat_map (fun a => match a with CResult _ d => [d] | _ => [] end) (map (CDouble R) l) = []) by (induction l; cbn; congruence).
  assert (B2 : forall l, flat_map (fun a => match a with CResult _ d => [d] | _ => [] end) (map (CQubit R) l) = []) by (induction l; cbn; congruence).
  rewrite A, B, A', B', A2, B2, !app_nil_r. auto.
Qed.
Definition stands_for (b : base_call) (g : gate R) : Prop :=
  let '(f, ps, qs) := b in exists ctrl m nm k kx, base_gate f ps = Some (ctrl, m) /\ base_class f ps ctrl nm k kx /\ g = (nm, ps, qs) /\ NoDup qs /\ List.length qs = if ctrl then 2 else 1.

Section Load.
Variable ptrue : R -> bool.
Variable peqb : R -> R -> bool.
Variable more : list cls.
Notation ended := (ended R ptrue peqb more).

Lemma asks_program (w : world R) ks gs ms rs : ended w -> base_program ks gs ms rs ->
  exists gs', Forall2 stands_for gs gs' /\ asks R w ks gs' (map fst ms) (map snd ms) None.
Proof.
  intros E [(k & ->) B _].
  assert (A0 : asks R w (map record_call rs) [] [] [] None).
  { induction rs as [|r rs IH]; cbn [map]; [constructor|]. apply ask_other; [reflexivity|exact IH]. }
  assert (A1 : asks R w (map measure_call ms ++ map record_call rs) [] (map fst ms) (map snd ms) None).
  { induction ms as [|m ms IH]; cbn [map app]; [exact A0|]. apply (ask_measure R w _ [CQubit R (fst m); CResult R (snd m)]); [cbn; tauto|exact IH]. }
  assert (A2 : exists gs', Forall2 stands_for gs gs' /\ asks R w (map gate_call gs ++ map measure_call ms ++ map record_call rs) gs' (map fst ms) (map snd ms) None).
  { clear A0. induction B as [|[[f ps] qs] gs (ctrl & m & Hb & Hd & Hl) B (gs' & F & A2)]; [exists []; split; [constructor|exact A1]|].
    destruct (base_has f ps ctrl m Hb) as (nm & k0 & kx & C). exists ((nm, ps, qs) :: gs'). split; [constructor; [|exact F]; exists ctrl, m, nm, k0, kx; auto|].
    destruct (places_gate ps qs) as (P1 & P2 & _). cbn [map app gate_call].
    destruct (ended_class R ptrue peqb more w k0 kx E (bc_class _ _ _ _ _ _ C)) as (kx' & K1 & K2).
    pose proof (ask_gate R w f (map (CDouble R) ps ++ map (CQubit R) qs) (map gate_call gs ++ map measure_call ms ++ map record_call rs) nm kx' gs' (map fst ms) (map snd ms) None) as G.
    rewrite P1, P2 in G. apply G; auto.
    - unfold read_as. apply in_or_app. left. apply C.
    - apply C.
    - exists k0, kx. split; [apply C|]. split; [apply C|exact K1].
    - rewrite Hl. apply C. exact K2. }
  destruct A2 as (gs' & F & A2). exists gs'. split; [exact F|]. clear -A2. induction k as [|k IH]; [exact A2|]. cbn [repeat app]. apply ask_other; [reflexivity|exact IH].
Qed.
Lemma below_program ks gs ms rs N n : base_program ks gs ms rs -> gate_places gs n -> n <= N -> Forall (fun m => fst m < n /\ snd m < N) ms -> Forall (below R N) ks.
Proof.
  intros [(k & ->) _ I] G Hn F. repeat (apply Forall_app; split).
  - apply Forall_forall. intros z Hz. apply repeat_spec in Hz. subst z. split; constructor.
  - apply Forall_forall. intros z Hz. apply in_map_iff in Hz. destruct Hz as ([[f ps] qs] & <- & Hz). cbn [gate_call below]. destruct (places_gate ps qs) as (_ & -> & ->). split; [|constructor].
    apply Forall_forall. intros j Hj. assert (j < n); [|lia]. apply G. exists (f, ps, qs), j. auto.
  - apply Forall_forall. intros z Hz. apply in_map_iff in Hz. destruct Hz as (m & <- & Hz). rewrite Forall_forall in F. specialize (F m Hz). cbn. split; repeat constructor; lia.
  - apply Forall_forall. intros z Hz. apply in_map_iff in Hz. destruct Hz as (r & <- & Hz). apply I in Hz. apply in_map_iff in Hz. destruct Hz as (m & <- & Hz). rewrite Forall_forall in F. specialize (F m Hz). cbn. split; repeat constructor; lia.
Qed.
Lemma gates_places gs gs' : Forall2 stands_for gs gs' -> forall k, (exists g j, In g gs /\ In j (snd g) /\ k <= j) <-> (exists g j, In g gs' /\ In j (snd g) /\ k <= j).
Proof.
  assert (A : forall b g, stands_for b g -> snd b = snd g).
  { intros [[f ps] qs] g (ctrl & m & nm & k & kx & _ & _ & -> & _). reflexivity. }
  intros F k. induction F as [|b g gs gs' H F IH]; [split; intros (g & j & [] & _)|].
  apply A in H. split; intros (g' & j & [<-|H1] & H2 & H3).
  - exists g, j. rewrite <- H. cbn. auto.
  - destruct IH as [IH _]. destruct IH as (g0 & j0 & G1 & G2); [eauto|]. exists g0, j0. cbn. auto.
  - exists b, j. rewrite H. cbn. auto.
  - destruct IH as [_ IH]. destruct IH as (g0 & j0 & G1 & G2); [eauto|]. exists g0, j0. cbn. auto.
Qed.

(** ** The loaded operations *)
Lemma lib_len : List.length library_classes = List.length library.
Proof. reflexivity. Qed.
Lemma same_class k k' kx kx' : nth_error library_classes k = Some kx -> nth_error library_classes k' = Some kx' -> k_name kx = k_name kx' -> k = k' /\ kx = kx'.
Proof.
  intros H1 H2 H3. assert (A : index_of (k_name kx') library_classes = Some k) by (eapply index_found; [exact library_names|exact H1|exact H3]).
  assert (B : index_of (k_name kx') library_classes = Some k') by (eapply index_found; [exact library_names|exact H2|reflexivity]).
  rewrite A in B. injection B as <-. split; [reflexivity|congruence].
Qed.
Lemma taken_nodup (l : list item) js qs : NoDup l -> Forall2 (fun j q => nth_error l j = Some q) js qs -> NoDup js -> NoDup qs.
Proof.
  intros Nl F. induction F as [|j q js qs H F IH]; intros Nj; [constructor|]. inversion Nj as [|? ? N1 N2]; subst. constructor; [|now apply IH].
  intros Hi. apply N1. clear -Hi F H Nl. induction F as [|j' q' js qs H' F IH]; [contradiction|]. destruct Hi as [->|Hi]; [|right; now apply IH].
  left. apply (proj1 (NoDup_nth_error l) Nl); [apply nth_error_Some; congruence|congruence].
Qed.
Lemma gate_ready (w : world R) x b g o y : ended w -> NoDup (circuit_qubits x) -> stands_for b g -> holds_gate R w x g o -> nth_error (w_op w) o = Some y -> ready w x o y.
Proof.
  intros E Nd. destruct b as [[f ps] qs]. intros (ctrl & m & nm & k & kx & _ & C & -> & Hd & Hl) (y' & kx' & l & H1 & H2 & H3 & H4 & H5 & H6 & H7 & H8) Hy.
  rewrite Hy in H1. injection H1 as <-.
  destruct (same_class _ _ _ _ H2 (bc_class _ _ _ _ _ _ C)) as [Ek Ekx]; [rewrite H3; symmetry; apply C|]. subst kx'.
  destruct (ended_class R ptrue peqb more w _ _ E H2) as (kh & K1 & (S1 & S2 & S3 & S4 & S5 & S6)).
  assert (Len : List.length l = List.length qs) by (clear -H5; induction H5; cbn; congruence).
  constructor.
  - rewrite <- lib_len. apply nth_error_Some. congruence.
  - exists l. split; [exact H4|]. intros k' Hk'. rewrite K1 in Hk'. injection Hk' as <-. split.
    + intros _. eapply taken_nodup; eauto.
    + unfold controlled. rewrite S2. intros Hc. rewrite Len, Hl. now rewrite (bc_ctrl _ _ _ _ _ _ C Hc).
  - intros k' Hk'. rewrite K1 in Hk'. injection Hk' as <-. rewrite S2. intros Hp. rewrite H6, (bc_par _ _ _ _ _ _ C). split.
    + pose proof (bc_has _ _ _ _ _ _ C Hp). destruct ps; [contradiction|discriminate].
    + intros _. apply Forall_forall. intros z Hz. apply in_map_iff in Hz. destruct Hz as (a & <- & _). now exists a.
  - intros l0. rewrite H7. discriminate.
  - intros l0. rewrite H8. discriminate.
Qed.
Lemma meas_ready (w : world R) x mq mb o y : ended w -> Forall is_bit (circuit_bits x) -> holds_measurement R w x mq mb o -> nth_error (w_op w) o = Some y -> ready w x o y.
Proof.
  intros E Hb (y' & kx & l & l' & H1 & H2 & H3 & H4 & H5 & H6 & H7 & H8 & H9) Hy. rewrite Hy in H1. injection H1 as <-.
  destruct (same_class (o_cls y) 22 kx (mkCls "Measurement"%string KMeas None None None None) H2 eq_refl H3) as [Ek ->].
  destruct (ended_class R ptrue peqb more w _ _ E H2) as (kh & K1 & (S1 & S2 & S3 & S4 & S5 & S6)).
  constructor.
  - rewrite <- lib_len. apply nth_error_Some. congruence.
  - exists l. split; [exact H4|]. intros k' Hk'. rewrite K1 in Hk'. injection Hk' as <-. unfold controlled. rewrite S2. cbn. split; [contradiction|intros [H|H]; discriminate H].
  - intros k' Hk'. rewrite K1 in Hk'. injection Hk' as <-. rewrite S2. discriminate.
  - intros l0. rewrite H6. intros [= <-]. apply Forall_forall. intros b Hi. rewrite Forall_forall in Hb. apply Hb. clear -H7 Hi. induction H7; [contradiction|]. destruct Hi as [<-|Hi]; [eapply nth_error_In; eauto|auto].
  - intros l0. rewrite H8. discriminate.
Qed.

Lemma gate_says (w : world R) x sc b g o s : ended w -> circuit_qubits x = map IQubit (sc_qubits Ccring sc) -> wf_op sc s -> stands_for b g -> holds_gate R w x g o -> shown w o s ->
  says_gate sc (gate_call b) s /\ is_measure (so_kind Ccring s) = false.
Proof.
  intros E Eq W. destruct b as [[f ps] qs]. intros (ctrl & m & nm & k & kx & _ & C & -> & Hd & Hl) (y & kx' & l & H1 & H2 & H3 & H4 & H5 & H6 & H7 & H8) (y' & kh & qs' & Ey & Eh & Eqs & Sq & Sc & Sk).
  assert (y' = y) by congruence. subst y'.
  destruct (same_class _ _ _ _ H2 (bc_class _ _ _ _ _ _ C)) as [Ek Ekx]; [rewrite H3; symmetry; apply C|]. subst kx'.
  destruct (ended_class R ptrue peqb more w _ _ E H2) as (kh' & K1 & (S1 & _)). assert (kh' = kh) by congruence. subst kh'. rewrite S1, H3 in Sk.
  assert (Sk' : is_measure (so_kind Ccring s) = false /\ exists ps' gt, o_params y = map PNum ps' /\ stands nm ps' gt /\ so_kind Ccring s = gate_kind gt).
  { destruct (so_kind Ccring s) as [mid bs| | | | |]; [destruct Sk as [Em _]; exfalso; exact (bc_meas _ _ _ _ _ _ C Em)|..]; (split; [reflexivity|]);
      destruct Sk as (ps' & gt & T1 & T2 & T3); exists ps', gt; auto. }
  destruct Sk' as (Em & ps' & gt & T1 & T2 & T3). split; [|exact Em].
  assert (Ep : ps' = ps).
  { rewrite H6, (bc_par _ _ _ _ _ _ C) in T1. clear -T1. revert ps' T1. induction ps as [|a ps IH]; intros [|a' ps'] T; cbn in T; try discriminate; [reflexivity|]. injection T as -> T. f_equal. now apply IH. }
  subst ps'. rewrite H8 in Sc.
  exists nm, ps, gt, f, qs', qs. split; [exact T2|]. split; [apply C|]. split; [apply C|]. split; [reflexivity|]. split; [exact T3|]. split; [exact Sc|]. split; [exact Sq|].
  destruct W as (qs0 & W1 & _ & W2 & W3 & _). assert (qs0 = qs') by congruence. subst qs0.
  split; [now apply W2|]. split. { apply W3. rewrite T3. destruct gt; reflexivity. }
  assert (l = map IQubit qs') by congruence. subst l. rewrite Eq in H5. clear -H5. revert qs' H5. induction qs as [|j qs IH]; intros [|q qs'] H; cbn [map] in H; inversion H as [|? ? ? ? A B]; subst; constructor; [|now apply IH].
  rewrite nth_error_map in A. destruct (nth_error (sc_qubits Ccring sc) j); [|discriminate A]. cbn in A. congruence.
Qed.
Lemma meas_says (w : world R) x sc cb ms o s : ended w -> circuit_qubits x = map IQubit (sc_qubits Ccring sc) -> circuit_bits x = map IBit cb -> holds_measurement R w x (map fst ms) (map snd ms) o -> shown w o s ->
  exists l, says_meas l s /\ Forall2 (placed_pair sc cb) l ms.
Proof.
  intros E Eq Eb (y & kx & l & l' & H1 & H2 & H3 & H4 & H5 & H6 & H7 & H8 & H9) (y' & kh & qs' & Ey & Eh & Eqs & Sq & Sc & Sk).
  assert (y' = y) by congruence. subst y'. assert (El : l = map IQubit qs') by congruence. subst l. rewrite H8 in Sc.
  destruct (ended_class R ptrue peqb more w _ _ E H2) as (kh' & K1 & (S1 & _)). assert (kh' = kh) by congruence. subst kh'. rewrite S1, H3 in Sk.
  rewrite map_length in H7. rewrite <- (map_length snd ms), firstn_all in H7.
  assert (Sk' : exists mid bs', so_kind Ccring s = KMeasure Ccring mid (Some bs') /\ l' = map IBit bs').
  { destruct (so_kind Ccring s) as [mid bs'| | | | |]; [destruct Sk as (_ & _ & Sb); rewrite H6 in Sb; destruct bs' as [bs'|]; [|discriminate Sb]; cbn in Sb; injection Sb as ->; eauto|..];
      exfalso; destruct Sk as (ps & gt & _ & S2 & _); inversion S2 as [? ? ? S3|? ? ? S3 Em|Em|Em|Em]; try (inversion S3; fail). }
  destruct Sk' as (mid & bs' & Ek & ->). rewrite Eq in H5. rewrite Eb in H7.
  assert (G : Forall2 (placed_pair sc cb) (combine qs' bs') ms /\ List.length qs' <= List.length bs').
  { clear -H5 H7. revert qs' bs' H5 H7. induction ms as [|m ms IH]; intros [|q qs'] [|b bs'] H5 H7; cbn [map] in *; inversion H5 as [|? ? ? ? A5 B5]; inversion H7 as [|? ? ? ? A7 B7]; subst; [split; [constructor|auto]|].
    destruct (IH qs' bs' B5 B7) as [G1 G2]. split; [|cbn; lia]. constructor; [|exact G1].
    rewrite nth_error_map in A5, A7. destruct (nth_error (sc_qubits Ccring sc) (fst m)) as [q'|] eqn:Q; [|discriminate A5]. destruct (nth_error cb (snd m)) as [b'|] eqn:B; [|discriminate A7].
    cbn in A5, A7. split; cbn; congruence. }
  destruct G as [G1 G2]. exists (combine qs' bs'). split; [|exact G1]. exists mid, qs', bs'. auto.
Qed.

(** ** Programs *)
Lemma init_same sc bits measured m0 ks k : same_runs sc bits measured m0 (Call R "__quantum__rt__initialize" [] :: ks) ->
  same_runs sc bits measured m0 (repeat (Call R "__quantum__rt__initialize" []) k ++ ks).
Proof.
  intros (drawn & D & S & B). assert (Fw : forall os p s, qir_run (SimModel.num_qubits Ccring sc) ks ground os p s -> qir_run (SimModel.num_qubits Ccring sc) (repeat (Call R "__quantum__rt__initialize" []) k ++ ks) ground os p s).
  { induction k as [|k IH]; cbn [repeat app]; auto. intros. constructor. auto. }
  assert (Bw : forall os p s, qir_run (SimModel.num_qubits Ccring sc) (repeat (Call R "__quantum__rt__initialize" []) k ++ ks) ground os p s -> qir_run (SimModel.num_qubits Ccring sc) ks ground os p s).
  { clear Fw. induction k as [|k IH]; cbn [repeat app]; auto. intros os p s H. apply IH. now apply run_init_inv in H. }
  exists drawn. split; [exact D|]. split.
  - intros rnd os st Hr Hd. destruct (S rnd os st Hr Hd) as (p & s & Hrun & Hs). exists p, s. split; [|exact Hs]. apply Fw. now apply run_init_inv in Hrun.
  - intros os p s H. apply (B os p s). constructor. now apply Bw.
Qed.

Lemma load_means (w : world R) fs gs ms rs n N : ended w -> w_active w = None -> w_exit w = [] ->
  base_program (calls_read R fs) gs ms rs -> gate_places gs n -> 1 <= n <= 30 -> n <= N -> Forall (fun m => fst m < n /\ snd m < N) ms ->
  ssize_ok (zn (List.length (w_qubit w) + N + N) + 1) = true -> ssize_ok (zn (List.length (w_bit w) + N) + 1) = true ->
  exists w' x' sc bits recorded, load_module R ptrue fs None w = (w', Ok (List.length (w_circ w))) /\ ended w' /\ idle R w' (List.length (w_circ w)) x' /\
    loaded R (List.length (w_circ w)) (one_more R w) empty_circuit w' x' (c_ops x') /\
    seen w' (List.length (w_circ w)) = Some sc /\ circuit_qubits x' = map IQubit (sc_qubits Ccring sc) /\ List.length (circuit_qubits x') = n /\
    circuit_bits x' = map IBit bits /\ Forall2 (fun b r => nth_error bits r = Some b) recorded rs /\
    same_runs sc bits recorded (memory w') (calls_read R fs).
Proof.
  intros E Ha Hx Bp Gp Hn HN Hms S1 S2.
  assert (Sm : small R w) by (split; eapply ssize_le; [exact S1|lia|exact S2|lia]).
  destruct (new_step R ptrue peqb more w E Ha Hx Sm) as (E0 & I0 & _).
  destruct (asks_program (one_more R w) _ gs ms rs E0 Bp) as (gs' & Fs & A).
  pose proof (below_program _ gs ms rs N n Bp Gp HN Hms) as Bl.
  destruct (module_step R ptrue peqb more (List.length (w_circ w)) (one_more R w) empty_circuit fs gs' (map fst ms) (map snd ms) None N E0 I0 A) as (w' & x' & os & r & Lm & E' & I' & L' & Ld & Sz & Sb & Bn); auto; [lia|left; now left|left; now left|intros i b Hi; destruct i; discriminate|].
  rewrite <- module_new in Lm.
  assert (Len : List.length (circuit_qubits x') = n).
  { assert (H : forall k, k < List.length (circuit_qubits x') <-> k < n).
    { intros k. rewrite (Sz eq_refl k), (Gp k), (gates_places gs gs' Fs k). cbn. split; [intros [H|H]; [lia|exact H]|auto]. }
    destruct (lt_eq_lt_dec (List.length (circuit_qubits x')) n) as [[H1|H1]|H1]; [apply H in H1; lia|exact H1|apply H in H1; lia]. }
  assert (Hq : Forall (fun j => j < List.length (circuit_qubits x')) (map fst ms)).
  { apply Forall_forall. intros j Hj. apply in_map_iff in Hj. destruct Hj as (m & <- & Hm). rewrite Forall_forall in Hms. rewrite Len. now apply Hms. }
  assert (Shape : r = Ok (List.length (w_circ w)) /\ exists os1 os2, os = os1 ++ os2 /\ Forall2 (holds_gate R w' x') gs' os1 /\
     (ms = [] /\ os2 = [] \/ ms <> [] /\ exists o, os2 = [o] /\ holds_measurement R w' x' (map fst ms) (map snd ms) o)).
  { inversion Ld as [|os' Hmq G|os' j Hj Hk G|os' o Hmq Hf Hlt G Hu|os' o Hmq Hf Hle G Hh]; subst.
    - split; [reflexivity|]. exists os, []. rewrite app_nil_r. destruct ms; [auto|discriminate Hmq].
    - exfalso. rewrite Forall_forall in Hq. specialize (Hq j Hj). lia.
    - exfalso. rewrite !map_length in Hlt. lia.
    - split; [reflexivity|]. exists os', [o]. split; [reflexivity|]. split; [exact G|]. right. split; [destruct ms; [contradiction|discriminate]|]. eauto. }
  destruct Shape as (-> & os1 & os2 & -> & Hg & Hm).
  pose proof (ld_ops _ _ _ _ _ _ _ L') as Eo. cbn [empty_circuit c_ops app] in Eo.
  pose proof (id_circ _ _ _ _ I') as Hc.
  assert (Bn' : ms = [] -> circuit_bits x' = []) by (intros ->; exact (Bn eq_refl)). clear Bn. rename Bn' into Bn.
  assert (Sm' : small R w').
  { pose proof L' as L0. destruct L0 as [_ _ (l1 & Q1 & Q2) (l2 & B1 & B2) _ _ _ _ _ _]. cbn in Q1, Q2, B1, B2. split.
    - rewrite Q1, app_length. rewrite Q2, map_length, seq_length in Len. eapply ssize_le; [exact S1|]. lia.
    - rewrite B1, app_length, map_length. eapply ssize_le; [exact S2|]. apply Nat.add_le_mono_l. rewrite B2, map_length, seq_length in Sb.
      destruct Hm as [[-> ->]|[Hne _]].
      + specialize (Bn eq_refl). rewrite B2 in Bn. destruct l2; [cbn; lia|discriminate Bn].
      + rewrite (Sb eq_refl) by (destruct ms; [contradiction|discriminate]). cbn [empty_circuit circuit_bits c_b s_regs all_items map List.concat List.length]. rewrite Nat.max_0_l. apply maxi_lt; [lia|].
        apply Forall_forall. intros j Hj. apply in_map_iff in Hj. destruct Hj as (m & <- & Hmm). rewrite Forall_forall in Hms. now apply Hms. }
  destruct (ended_visits R ptrue peqb more w' E') as (p & Hex & Hvi).
  destruct (both_bits R ptrue peqb more p w' Hex Hvi Sm' _ x' Hc) as (B1 & _ & _).
  destruct (read_bits _ B1) as (cb & _ & Ecb).
  assert (Ncb : NoDup cb).
  { destruct (IB_reach R ptrue peqb w' (both_class R ptrue peqb more p w' Hex Hvi) Sm') as [J _]. destruct (JB_nth _ _ _ _ J Hc) as [Aa _].
    pose proof (ro_nodup _ _ Aa) as Nn. change (all_items (s_regs (c_b x'))) with (circuit_bits x') in Nn. rewrite Ecb in Nn. exact (NoDup_map_inv _ _ Nn). }
  assert (Nq : NoDup (circuit_qubits x')).
  { destruct (ended_inv R ptrue peqb more w' E' Sm') as (J & _). destruct (JQ_nth _ _ _ _ J Hc) as [Aa _]. exact (ro_nodup _ _ Aa). }
  assert (Rd : forall o y, In o (c_ops x') -> nth_error (w_op w') o = Some y -> ready w' x' o y).
  { rewrite Eo. intros o y Ho Hy. apply in_app_or in Ho. destruct Ho as [Ho|Ho].
    - assert (X : exists b g, stands_for b g /\ holds_gate R w' x' g o).
      { clear -Fs Hg Ho. revert os1 Hg Ho. induction Fs as [|b g gs gs' H F IH]; intros os1 Hg Ho; inversion Hg as [|? o' ? os' H1 F1]; subst; [contradiction|].
        destruct Ho as [<-|Ho]; [eauto|eapply IH; eauto]. }
      destruct X as (b & g & X1 & X2). eapply gate_ready; eauto.
    - destruct Hm as [[_ ->]|[_ (o' & -> & Hh)]]; [contradiction|]. destruct Ho as [<-|[]]. eapply meas_ready; eauto. }
  destruct (link_seen ptrue peqb more p w' (both_own R ptrue peqb more p Hex) Hvi Sm' _ x' Hc Rd) as (sc & E3 & E4 & E5 & W & U).
  { intros H. rewrite H in Len. cbn in Len. lia. }
  rewrite Eo in E5. apply Forall2_app_inv_l in E5. destruct E5 as (sg & sm & Fg & Fm & Es). pose proof W as (_ & _ & Wo).
  assert (G : Forall2 (says_gate sc) (map gate_call gs) sg /\ forall s, In s sg -> is_measure (so_kind Ccring s) = false).
  { assert (Wg : forall s, In s sg -> wf_op sc s) by (intros s Hs; apply Wo; rewrite Es; apply in_or_app; now left).
    clear -Fs Hg Fg Wg E' E4. revert os1 sg Hg Fg Wg. induction Fs as [|b g gs gs' H F IH]; intros os1 sg Hg Fg Wg; inversion Hg as [|? o ? os' H1 F1]; subst; inversion Fg as [|? s ? sg' H2 F2]; subst.
    - split; [constructor|intros s []].
    - destruct (gate_says w' x' sc b g o s E' E4 (Wg s (or_introl eq_refl)) H H1 H2) as [T1 T2]. destruct (IH os' sg' F1 F2) as [T3 T4]; [intros z Hz; apply Wg; now right|].
      split; [cbn [map]; now constructor|]. intros z [<-|Hz]; auto. }
  destruct G as [G1 G2].
  assert (Ms : exists ls, Forall2 says_meas ls sm /\ Forall2 (placed_pair sc cb) (List.concat ls) ms).
  { destruct Hm as [[-> ->]|[_ (o & -> & Hh)]].
    - inversion Fm; subst. exists []. split; constructor.
    - inversion Fm as [|? s ? sm' H2 F2]; subst. inversion F2; subst. destruct (meas_says w' x' sc cb ms o s E' E4 Ecb Hh H2) as (l & T1 & T2).
      exists [l]. split; [repeat constructor; exact T1|]. cbn [List.concat]. now rewrite app_nil_r. }
  destruct Ms as (ls & M1 & M2).
  destruct Bp as [(k & Ek) _ Ir].
  assert (Pr : exists zb, Forall2 (fun b j => nth_error cb j = Some b) zb rs).
  { assert (Fm' : forall z, In z (map snd ms) -> exists b, nth_error cb z = Some b).
    { clear -M2. induction M2 as [|a m l ms [_ H] F IH]; intros z []; [subst; eauto|auto]. }
    clear -Ir Fm'. induction rs as [|r0 rs IH]; [exists []; constructor|]. destruct (Fm' r0 (Ir r0 (or_introl eq_refl))) as (b & Hb). destruct IH as (zb & F); [intros z Hz; apply Ir; now right|]. exists (b :: zb). now constructor. }
  destruct Pr as (zb & Fz).
  exists w', x', sc, cb, zb. split; [exact Lm|]. split; [exact E'|]. split; [exact I'|]. split; [rewrite Eo; exact L'|]. split; [exact E3|]. split; [exact E4|]. split; [exact Len|]. split; [exact Ecb|]. split; [exact Fz|].
  rewrite Ek. apply init_same.
  set (zs := map (fun r => (0, r)) rs).
  assert (Ez : map snd zs = rs) by (unfold zs; rewrite map_map; apply map_id).
  assert (Er : map record_call rs = map rec zs) by (unfold zs; rewrite map_map; reflexivity).
  rewrite Er. change (map measure_call ms) with (map mz ms).
  apply (sem_records sc cb (memory w') sg sm (map gate_call gs) ls ms W U); auto.
  - unfold SimModel.num_qubits. apply (f_equal (@List.length item)) in E4. rewrite map_length in E4. lia.
  - now rewrite Ez.
  - now rewrite Ez.
Qed.
End Load.

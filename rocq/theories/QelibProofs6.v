(** Proof that the text written for a circuit means what the simulator computes. *)
From Coq Require Import List ZArith String Bool Arith NArith Ascii Reals Lra Lia Ring.
From Verif Require Import Py CRing Cplx KernelSpec KernelBits KernelProofs2 SimModel SimSpec SimReal SimProofs SimProofs2 StateModel StateSpec StateProofs GateModel QasmModel QasmSpec QelibSpec QelibProofs QelibProofs2 QelibProofs4 QelibProofs5
  RegisterModel WorldModel WorldSpec WorldSpec4 LinkModel LinkSpec LinkProofs ExportModel ExportSpec ExportProofs2 TextSpec.
Import ListNotations.
Local Open Scope nat_scope.
Local Open Scope string_scope.

(** ** The definitions that are offered *)
Definition swap_text : string := "gate swap a, b { cx b, a; cx a, b; cx b, a; }".
Definition cswap_text : string := "gate cswap c, a, b { cx b, a; ccx c, a, b; cx b, a; }".
Lemma read_swap D : read_def D swap_text = if existsb (fun e => String.eqb (d_name e) "swap") D then None else Some (swap_decl :: D).
Proof. reflexivity. Qed.
Lemma read_cswap D : read_def D cswap_text = if existsb (fun e => String.eqb (d_name e) "cswap") D then None else Some (cswap_decl :: D).
Proof. reflexivity. Qed.
Lemma not_defined n D : ~ In n (map d_name D) -> existsb (fun e => String.eqb (d_name e) n) D = false.
Proof.
  induction D as [|d D IH]; intros H; [reflexivity|]. cbn in *. destruct (String.eqb_spec (d_name d) n) as [E|_]; [destruct H; now left|].
  apply IH. tauto.
Qed.
Lemma file_swap D : file D -> ~ In "swap" (map d_name D) -> file (swap_decl :: D).
Proof.
  intros (e & -> & He & Hn) Hs. exists (swap_decl :: e). split; [reflexivity|]. split; [intros d [<-|Hd]; [cbn; tauto|now apply He]|].
  cbn. constructor; [|exact Hn]. intros Hi. apply Hs. rewrite map_app. apply in_or_app. now left.
Qed.
Lemma file_cswap D : file D -> ~ In "cswap" (map d_name D) -> file (cswap_decl :: D).
Proof.
  intros (e & -> & He & Hn) Hs. exists (cswap_decl :: e). split; [reflexivity|]. split; [intros d [<-|Hd]; [cbn; tauto|now apply He]|].
  cbn. constructor; [|exact Hn]. intros Hi. apply Hs. rewrite map_app. apply in_or_app. now left.
Qed.
Lemma definitions_read ns : ~ In "Rotation" ns -> ~ In "CRotation" ns -> forall D, file D ->
  (count_occ string_dec ns "SWAP" <= 1) -> (count_occ string_dec ns "CSWAP" <= 1) ->
  (In "swap" (map d_name D) -> ~ In "SWAP" ns) -> (In "cswap" (map d_name D) -> ~ In "CSWAP" ns) ->
  exists D', read_defs D (List.concat (map offered ns)) = Some D' /\ file D' /\ incl (map d_name D) (map d_name D') /\
    (In "SWAP" ns -> In "swap" (map d_name D')) /\ (In "CSWAP" ns -> In "cswap" (map d_name D')).
Proof.
  induction ns as [|n ns IH]; intros H1 H2 D HD C1 C2 S1 S2.
  - exists D. cbn. repeat split; auto using incl_refl; contradiction.
  - assert (H1' : ~ In "Rotation" ns) by (intros H; apply H1; now right). assert (H2' : ~ In "CRotation" ns) by (intros H; apply H2; now right).
    specialize (IH H1' H2'). cbn [map List.concat]. unfold offered at 1.
    destruct (String.eqb_spec n "Rotation") as [->|_]; [destruct H1; now left|]. destruct (String.eqb_spec n "CRotation") as [->|_]; [destruct H2; now left|].
    destruct (String.eqb_spec n "SWAP") as [->|N1]; [|destruct (String.eqb_spec n "CSWAP") as [->|N2]].
    + rewrite count_occ_cons_eq in C1 by reflexivity. rewrite count_occ_cons_neq in C2 by discriminate.
      assert (Ns : ~ In "SWAP" ns) by (rewrite (count_occ_In string_dec); lia).
      assert (Nd : ~ In "swap" (map d_name D)) by (intros H; apply (S1 H); now left).
      cbn [app read_defs]. change (read_def D _) with (read_def D swap_text). rewrite read_swap, (not_defined _ _ Nd).
      destruct (IH (swap_decl :: D)) as (D' & E & F & I & A & B); try assumption; try lia; try (now apply file_swap); try (intros _; exact Ns).
      { cbn. intros [H|H]; [discriminate H|]. intros Hi. apply (S2 H). now right. }
      exists D'. split; [exact E|]. split; [exact F|]. split; [intros q Hq; apply I; now right|]. split.
      * intros _. apply I. now left.
      * intros [H|H]; [discriminate H|now apply B].
    + rewrite count_occ_cons_eq in C2 by reflexivity. rewrite count_occ_cons_neq in C1 by discriminate.
      assert (Ns : ~ In "CSWAP" ns) by (rewrite (count_occ_In string_dec); lia).
      assert (Nd : ~ In "cswap" (map d_name D)) by (intros H; apply (S2 H); now left).
      cbn [app read_defs]. change (read_def D _) with (read_def D cswap_text). rewrite read_cswap, (not_defined _ _ Nd).
      destruct (IH (cswap_decl :: D)) as (D' & E & F & I & A & B); try assumption; try lia; try (now apply file_cswap); try (intros _; exact Ns).
      { cbn. intros [H|H]; [discriminate H|]. intros Hi. apply (S1 H). now right. }
      exists D'. split; [exact E|]. split; [exact F|]. split; [intros q Hq; apply I; now right|]. split.
      * intros [H|H]; [discriminate H|now apply A].
      * intros _. apply I. now left.
    + rewrite count_occ_cons_neq in C1, C2 by congruence. cbn [app].
      destruct (IH D) as (D' & E & F & I & A & B); try assumption.
      { intros H Hi. apply (S1 H). now right. }
      { intros H Hi. apply (S2 H). now right. }
      exists D'. split; [exact E|]. split; [exact F|]. split; [exact I|]. split; (intros [H|H]; [congruence|auto]).
Qed.

(** ** Circuits *)
Section Means.
Variable ptrue : R -> bool.
Variable peqb : R -> R -> bool.
Variable more : list cls.
Variable p : prog R.
Variable v : world R.
Hypothesis Hex : executes R ptrue peqb (both_ok R ptrue peqb) p (start R (library_classes ++ more)%list).
Hypothesis Hvi : visits R ptrue peqb p (start R (library_classes ++ more)%list) v.
Hypothesis Hsm : small R v.
Variables (c : nat) (x : circ).
Hypothesis Hc : nth_error (w_circ v) c = Some x.
Variable show : param R -> string.
Variable value : string -> option R.
Hypothesis Hw : forall o y, In o (c_ops x) -> nth_error (w_op v) o = Some y -> writable value show v x o y.
Hypothesis Hq : circuit_qubits x <> [].
Variable lstr : label -> string.
Variables labels defs : bool.
Hypothesis Hl : labels = true -> labels_fit lstr x.

Lemma ready_complete o y : ready v x o y -> complete R v y.
Proof.
  intros [A (qs & B & C) D _ _]. constructor; [exact A| |].
  - exists qs. split; [exact B|]. intros k Hk Hk'. now apply (C k Hk).
  - intros k Hk Hk'. now apply (D k Hk Hk').
Qed.

Lemma text_means D : file D ->
  (forall ns, Forall2 (named_op R v) (c_ops x) ns -> exists D', read_defs D (if defs then List.concat (map offered ns) else []) = Some D' /\ file D' /\
    forall n q k, In n ns -> In (n, (q, k)) qasm_names -> In q (map d_name D')) ->
  exists a s prims sc, qasm_circuit R v c = Some a /\ to_qasm (param R) show label label_true lstr "2.0" labels defs a = Ok s /\
    program value D s = Some prims /\ seen v c = Some sc /\ circuit_qubits x = map IQubit (sc_qubits Ccring sc) /\
    Forall2 (shown v) (c_ops x) (sc_ops Ccring sc) /\ wf_circ sc /\ measurement_free sc /\ unitary_circ sc /\
    forall le, exists z, Cnorm2 z = 1%R /\
      forall bits u w, runs le sc bits (sc_ops Ccring sc) u w ->
        forall i, (i < 2 ^ SimModel.num_qubits Ccring sc)%N -> QelibSpec.run le (SimModel.num_qubits Ccring sc) prims u i = Cmul z (w i).
Proof.
  intros HD Hdef.
  assert (Hown : executes R ptrue peqb (own_ok R) p (start R (library_classes ++ more)%list)) by (eapply both_own; exact Hex).
  destruct (link_seen ptrue peqb more p v Hown Hvi Hsm c x Hc) as (sc & E1 & E2 & E3 & E4 & E5); [intros o y Ho Ey; apply (Hw o y Ho Ey)|exact Hq|].
  destruct (export_qasm R ptrue peqb more p v Hex Hvi Hsm c x Hc show lstr labels defs) as (a & s & ds & qs & cs & ss & A1 & A2 & A3 & A4 & _ & _ & A5 & ns & A6 & A7).
  { intros o y Ho Ey. destruct (Hw o y Ho Ey) as [W1 W2 W3 W4]. split; [eapply ready_complete; exact W1|]. split; [exact W2|].
    rewrite Forall_map. eapply Forall_impl; [|exact W4]. cbn. tauto. }
  { exact Hl. }
  destruct (Hdef ns A6) as (D' & B1 & B2 & B3). rewrite <- A7 in B1.
  assert (Hnd : NoDup (sc_qubits Ccring sc)) by apply E4.
  assert (F : Forall2 (says value D' qs sc) ss (sc_ops Ccring sc)).
  { assert (Hwf : forall so, In so (sc_ops Ccring sc) -> wf_op sc so) by apply E4.
    assert (Hop : forall o y, In o (c_ops x) -> nth_error (w_op v) o = Some y -> writable value show v x o y) by exact Hw.
    clear -E2 E3 A5 A6 B3 Hwf Hop. revert ss ns A5 A6 B3 Hwf Hop. generalize (sc_ops Ccring sc) E3. generalize (c_ops x) as os.
    intros os sos F. induction F as [|o so os sos Hs _ IH]; intros ss ns A5 A6 B3 Hwf Hop; inversion A5 as [|? st ? ss' S1 S2]; subst; inversion A6 as [|? n ? ns' T1 T2]; subst; constructor.
    - destruct Hs as (y & k & qids & H1 & H2 & H3 & H4 & H5 & H6). destruct (Hop o y (or_introl eq_refl) H1) as [W1 W2 W3 W4].
      destruct S1 as (y' & n' & qs' & G1 & (k' & G2 & G3) & G4 & (kk & G5) & G6 & G7).
      assert (y' = y) by congruence. subst y'. assert (k' = k) by congruence. subst k'. assert (qs' = map IQubit qids) by congruence. subst qs'.
      destruct T1 as (y' & T1 & (k' & T3 & T4)). assert (y' = y) by congruence. subst y'. assert (k' = k) by congruence. subst k'.
      rewrite W3 in H5.
      assert (Hg : exists ps gt, o_params y = map PNum ps /\ stands (k_name k) ps gt /\ so_kind Ccring so = gate_kind gt).
      { destruct (so_kind Ccring so) as [mid bs| | | |nc dim m|nq m]; try exact H6. destruct H6 as (N & _). exfalso. apply W2. exists k. auto. }
      destruct Hg as (ps & g & K1 & K2 & K3). destruct (Hwf so (or_introl eq_refl)) as (qids' & V1 & V2 & V3 & V4 & V5).
      assert (qids' = qids) by congruence. subst qids'.
      exists (k_name k), ps, g, kk, qids. split; [exact K2|]. split; [now rewrite G3|]. split.
      { apply (B3 n _ kk); [now left|]. rewrite <- T4, G3. exact G5. }
      split.
      { rewrite G6, K1. rewrite K1 in W4. clear -W4. induction ps as [|q ps IH]; [reflexivity|]. cbn in *. inversion W4 as [|? ? [_ X] Y]; subst.
        rewrite (X q eq_refl), (IH Y). reflexivity. }
      split; [exact K3|]. split; [exact H5|]. split; [exact H4|]. rewrite K3 in V3, V4. split; [apply V3; now destruct g|]. split.
      { apply V4. now destruct g. }
      rewrite E2 in G7. clear -G7. remember (map IQubit qids) as l eqn:E. revert qids E. induction G7 as [|q t l ts (i & X & Y) _ IH]; intros [|q' qids] E; try discriminate E; constructor.
      + injection E as -> ->. exists i. split; [exact X|]. rewrite nth_error_map in Y. destruct (nth_error (sc_qubits Ccring sc) i); [|discriminate]. cbn in Y. congruence.
      + injection E as -> ->. now apply IH.
    - apply (IH _ ns'); try assumption.
      + intros n' q k Hn. apply B3. now right.
      + intros so' Hso. apply Hwf. now right.
      + intros o' y' Ho'. apply Hop. now right. }
  destruct (statements_run value D' B2 qs sc Hnd ss (sc_ops Ccring sc) F) as (prims & P1 & P2).
  assert (Hm : measurement_free sc).
  { intros so Hso. clear -F Hso. induction F as [|st so' ss sos H _ IH]; [contradiction|]. destruct Hso as [->|Hso]; [|now apply IH].
    destruct H as (? & ? & g & ? & ? & _ & _ & _ & _ & -> & _). now destruct g. }
  exists a, s, prims, sc. split; [exact A1|]. split; [exact A2|]. split; [|auto 10].
  unfold program. rewrite A3, does_defs, B1, does_qregs, does_cregs. exact P1.
Qed.

Lemma text_simulates D : file D ->
  (forall ns, Forall2 (named_op R v) (c_ops x) ns -> exists D', read_defs D (if defs then List.concat (map offered ns) else []) = Some D' /\ file D' /\
    forall n q k, In n ns -> In (n, (q, k)) qasm_names -> In q (map d_name D')) -> meant value show lstr labels defs D v c x.
Proof.
  intros HD Hdef. destruct (text_means D HD Hdef) as (a & s & prims & sc & A1 & A2 & A3 & A4 & A5 & A6 & A7 & A8 & A9 & A10).
  exists a, s, prims. split; [exact A1|]. split; [exact A2|]. split; [exact A3|]. exists sc. split; [exact A4|]. split; [exact A5|]. split; [exact A6|].
  intros le. destruct (A10 le) as (z & Hz & H). exists z. split; [exact Hz|]. split; [exact H|]. intros Hn rnd m st Hu.
  assert (L : N.of_nat (List.length (circuit_qubits x)) = SimModel.num_qubits Ccring sc).
  { unfold SimModel.num_qubits. now rewrite A5, map_length. }
  destruct (simulate_sets_state rnd sc le m st Hu A7 A9) as (m' & w & B1 & B2 & _); [lia|intros _; exact A8|].
  destruct (simulate_runs Ccring R Cgtb Cis0 Cinvsqrt rnd sc le m A7 A8 ltac:(lia)) as (w' & B3 & B4). fold simulate_C in B3.
  assert (Ew : m' = m /\ w' = w) by (rewrite B2 in B3; injection B3; auto). destruct Ew as [-> ->].
  exists w. split; [now rewrite L|]. intros i Hi. now apply (H _ _ _ B4).
Qed.
End Means.

Lemma means_plain ptrue peqb more p (v : world R) :
  executes R ptrue peqb (both_ok R ptrue peqb) p (start R (library_classes ++ more)%list) ->
  visits R ptrue peqb p (start R (library_classes ++ more)%list) v -> small R v ->
  forall c x, nth_error (w_circ v) c = Some x ->
  forall show value lstr labels D,
  (forall o y, In o (c_ops x) -> nth_error (w_op v) o = Some y -> writable value show v x o y) ->
  circuit_qubits x <> [] -> (labels = true -> labels_fit lstr x) -> file D -> all_defined v x D -> meant value show lstr labels false D v c x.
Proof.
  intros Hex Hvi Hsm c x Hc show value lstr labels D Hw Hq Hl HD Ha. eapply text_simulates; try eassumption.
  intros ns F. exists D. split; [reflexivity|]. split; [exact HD|]. intros n q k Hn Hk.
  assert (Ho : exists o, In o (c_ops x) /\ named_op R v o n).
  { clear -F Hn. induction F as [|o n' os ns H _ IH]; [contradiction|]. destruct Hn as [->|Hn]; [exists o; cbn; auto|]. destruct (IH Hn) as (o' & A & B). exists o'. cbn. auto. }
  destruct Ho as (o & H1 & H2). now apply (Ha o n q k).
Qed.
Lemma names_swap n q k : In (n, (q, k)) qasm_names -> q = "swap" -> n = "SWAP".
Proof. intros H ->. cbn in H. repeat destruct H as [H|H]; try discriminate H; try contradiction H. now injection H as <- _. Qed.
Lemma names_cswap n q k : In (n, (q, k)) qasm_names -> q = "cswap" -> n = "CSWAP".
Proof. intros H ->. cbn in H. repeat destruct H as [H|H]; try discriminate H; try contradiction H. now injection H as <- _. Qed.
Lemma means_defined ptrue peqb more p (v : world R) :
  executes R ptrue peqb (both_ok R ptrue peqb) p (start R (library_classes ++ more)%list) ->
  visits R ptrue peqb p (start R (library_classes ++ more)%list) v -> small R v ->
  forall c x, nth_error (w_circ v) c = Some x ->
  forall show value lstr labels D,
  (forall o y, In o (c_ops x) -> nth_error (w_op v) o = Some y -> writable value show v x o y) ->
  circuit_qubits x <> [] -> (labels = true -> labels_fit lstr x) -> file D -> others_defined v x D -> meant value show lstr labels true D v c x.
Proof.
  intros Hex Hvi Hsm c x Hc show value lstr labels D Hw Hq Hl HD (Hs & Hcs & Ha). eapply text_simulates; try eassumption.
  intros ns F. destruct (Ha ns F) as (A1 & A2 & A3 & A4 & A5).
  destruct (definitions_read ns A1 A2 D HD A3 A4) as (D' & B1 & B2 & B3 & B4 & B5); [contradiction|contradiction|].
  exists D'. split; [exact B1|]. split; [exact B2|]. intros n q k Hn Hk. destruct (A5 n q k Hn Hk) as [E|[E|E]].
  - pose proof (names_swap n q k Hk E). subst. auto.
  - pose proof (names_cswap n q k Hk E). subst. auto.
  - now apply B3.
Qed.

Lemma gate_meant D cn ps g q np nq : file D -> stands cn ps g -> In (cn, (q, (np, nq))) qasm_names -> In q (map d_name D) ->
  np = List.length ps /\ SimSpec.arity (gate_kind g) = Some nq /\
  forall le n ts, List.length ts = nq -> NoDup ts -> (forall t, In t ts -> (t < n)%N) ->
    exists prims, meaning D q ps ts = Some prims /\ up_to_phase n (QelibSpec.run le n prims) (@gate_action Ccring le n (gate_kind g) ts).
Proof.
  intros HD Hs Hin Hq. destruct (gate_written D cn ps g q np nq HD Hs Hin Hq) as (A & -> & ->). split; [reflexivity|]. split; [now destruct g|exact A].
Qed.

(** ** Gates without a definition *)
Lemma meaning_none D n ps qs : n <> "U" -> n <> "CX" -> ~ In n (map d_name D) -> meaning D n ps qs = None.
Proof.
  intros H1 H2 H. rewrite <- (app_nil_r D). rewrite meaning_skip by exact H. cbn [meaning].
  destruct (String.eqb_spec n "U"); [contradiction|]. destruct (String.eqb_spec n "CX"); [contradiction|]. reflexivity.
Qed.
Lemma statement_none value D rs s : s_name s <> "U" -> s_name s <> "CX" -> ~ In (s_name s) (map d_name D) -> statement_does value D rs s = None.
Proof.
  intros H1 H2 H. unfold statement_does. destruct (all value (s_params s)); [|reflexivity]. destruct (all (resolve rs) (s_operands s)) as [ks|]; [|reflexivity].
  destruct (distinct ks); [|reflexivity]. now apply meaning_none.
Qed.
Lemma file_names D n : file D -> In n (map d_name D) -> In n ["crx"; "cry"; "swap"; "cswap"; "rot"] \/ In n (map d_name qelib1).
Proof.
  intros (e & -> & He & _) H. rewrite map_app in H. apply in_app_or in H as [H|H]; [left|now right]. now apply (known_names e He).
Qed.

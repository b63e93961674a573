(** Compiling a circuit and loading the program; modules in general. *)
From Coq Require Import List ZArith NArith String Bool Arith Reals Lia.
From Verif Require Import Py CRing Cplx SimModel SimSpec SimReal SimProofs SimProofs2 GateModel StateModel QirModel QirSpec QirSemSpec QirMeantSpec QirSemProofs QirSemProofs2 QirSemProofs3 QirSemProofs4
  RegisterModel RegisterSpec RegisterProofs WorldModel WorldSpec WorldSpec4 WorldReg WorldInv WorldInv2 WorldInv6 WorldWf2 LinkModel LinkSpec LinkProofs ExportModel ExportSpec ExportProofs ExportProofs2 QirCircSpec
  LoadModel LoadSpec LoadMeanSpec LoadProofs LoadProofs2 LoadProofs3 LoadProofs4 LoadProofs5 LoadProofs6 LoadProofs7 LoadProofs8 LoadProofs9 LoadMean.
Import ListNotations.
Local Open Scope nat_scope.

(** ** Every list of calls asks for something *)
Lemma index_sound n l k : index_of n l = Some k -> exists x, nth_error l k = Some x /\ k_name x = n.
Proof.
  revert k. induction l as [|y l IH]; intros k H; cbn in H; [discriminate|]. destruct (String.eqb_spec n (k_name y)) as [E|E].
  - injection H as <-. exists y. auto.
  - destruct (index_of n l) as [j|]; [|discriminate]. injection H as <-. exact (IH j eq_refl).
Qed.
Lemma read_named n u : In (n, u) read_as -> exists k x, nth_error library_classes k = Some x /\ k_name x = n.
Proof.
  intros H. assert (F : Forall (fun q => match index_of (fst q) library_classes with Some _ => true | None => false end = true) read_as).
  { unfold read_as, function_of. cbn [app]. repeat (constructor; [vm_compute; reflexivity|]). constructor. }
  rewrite Forall_forall in F. specialize (F (n, u) H). cbn [fst] in F. destruct (index_of n library_classes) as [k|] eqn:E; [|discriminate]. exists k. exact (index_sound _ _ _ E).
Qed.
Lemma asks_total P ptrue peqb more (w : world P) ks : ended P ptrue peqb more w -> exists gs mq mb e, asks P w ks gs mq mb e.
Proof.
  intros E. induction ks as [|[u args] ks (gs & mq & mb & e & A)]; [do 4 eexists; constructor|].
  destruct (is_qis u) eqn:Q; [|do 4 eexists; apply ask_other; eauto].
  destruct (dget String.eqb u from_qis) as [n|] eqn:D.
  - apply read_names in D. destruct (string_dec n "Measurement") as [->|Hn]; [do 4 eexists; apply ask_measure; eauto|].
    destruct (read_named n u D) as (k & x & K1 & K2). destruct (ended_class P ptrue peqb more w k x E K1) as (kx & K3 & K4).
    assert (Nc : named_class P w n kx) by (exists k, x; auto).
    destruct (refusal kx (List.length (doubles P args)) (List.length (places P args))) as [e'|] eqn:Rf; [do 4 eexists; eapply ask_refused; eauto|do 4 eexists; eapply ask_gate; eauto].
  - do 4 eexists. apply ask_unknown; [exact Q|]. intros n H. destruct (names_read u n H) as [_ H']. congruence.
Qed.

(** A new circuit has room for everything. *)
Lemma load_new P ptrue peqb more (w : world P) fs gs mq mb e N : ended P ptrue peqb more w -> w_active w = None -> w_exit w = [] ->
  asks P w (calls_read P fs) gs mq mb e -> 0 < N -> Forall (below P N) (calls_read P fs) ->
  ssize_ok (zn (List.length (w_qubit w) + N + N) + 1) = true -> ssize_ok (zn (List.length (w_bit w) + N) + 1) = true ->
  exists w' x' r, load_module P ptrue fs None w = (w', r) /\ ended P ptrue peqb more w' /\ idle P w' (List.length (w_circ w)) x' /\
    loaded P (List.length (w_circ w)) (one_more P w) empty_circuit w' x' (c_ops x') /\
    loads P w' x' (List.length (w_circ w)) gs mq mb e (c_ops x') r /\
    (e = None -> (forall k, k < List.length (circuit_qubits x') <-> exists g j, In g gs /\ In j (snd g) /\ k <= j)).
Proof.
  intros E Ha Hx A HN B S1 S2. assert (Sm : small P w) by (split; eapply ssize_le; [exact S1|lia|exact S2|lia]).
  destruct (new_step P ptrue peqb more w E Ha Hx Sm) as (E0 & I0 & _).
  assert (A0 : asks P (one_more P w) (calls_read P fs) gs mq mb e).
  { clear -A. induction A; [constructor|..]; [apply ask_other|apply ask_unknown|apply ask_measure|eapply ask_refused|eapply ask_gate]; eauto. }
  destruct (module_step P ptrue peqb more (List.length (w_circ w)) (one_more P w) empty_circuit fs gs mq mb e N E0 I0 A0) as (w' & x' & os & r & Lm & E' & I' & L' & Ld & Sz & _); auto; [left; now left|left; now left|intros i b Hi; destruct i; discriminate|].
  pose proof (ld_ops _ _ _ _ _ _ _ L') as Eo. cbn [empty_circuit c_ops app] in Eo.
  exists w', x', r. rewrite module_new, Eo. repeat (split; [assumption|]). intros He k. rewrite (Sz He k). cbn. split; [intros [H|H]; [lia|exact H]|auto].
Qed.

(** ** Round trips *)
Lemma says_base sc k o : NoDup (sc_qubits Ccring sc) -> says_gate sc k o -> exists b, k = gate_call b /\ base_ok b /\ forall j, In j (snd b) -> j < List.length (sc_qubits Ccring sc).
Proof.
  intros Nd H. pose proof H as (cn & ps0 & g & f0 & qs & js0 & _ & _ & _ & Hk & _ & _ & _ & _ & _ & F).
  destruct (says_gate_does sc k o H) as (f & ps & js & ts & -> & _ & _ & Hg).
  injection Hk as _ Hk. apply args_inj in Hk. destruct Hk as [_ ->].
  exists (f, ps, js0). split; [reflexivity|]. split.
  - destruct (proj2 (Hg (fun _ => C0) _) (fun i _ => eq_refl)) as (ctrl & m & Hb & Hs). exists ctrl, m. split; [exact Hb|].
    destruct ctrl, js0 as [|a [|b [|d js]]]; try contradiction; cbn.
    + destruct Hs as (_ & _ & Hs & _). split; [|reflexivity]. constructor; [intros [E|[]]; congruence|repeat constructor; intros []].
    + split; [|reflexivity]. repeat constructor. intros [].
  - cbn [snd]. intros j Hj. pose proof (places_lt sc qs js0 F j Hj) as L. unfold SimModel.num_qubits in L. lia.
Qed.

Section Trip.
Variable ptrue : R -> bool.
Variable peqb : R -> R -> bool.
Variable more : list cls.
Variable p : prog R.
Variable v : world R.
Hypothesis Hex : executes R ptrue peqb (both_ok R ptrue peqb) p (start R (library_classes ++ more)%list).
Hypothesis Hvi : visits R ptrue peqb p (start R (library_classes ++ more)%list) v.
Hypothesis Hsm : small R v.
Variables (c : nat) (x : circ).
Hypothesis Hc : nth_error (w_circ v) c = Some x.
Variable pnum : param R -> bool.
Variable dbl : param R -> R.
Hypothesis Hdbl : forall a, dbl (PNum a) = a.
Variables gates meas : list nat.
Hypothesis Hops : c_ops x = (gates ++ meas)%list.
Hypothesis Hg : forall o y, In o gates -> nth_error (w_op v) o = Some y -> base_op pnum v x o y.
Hypothesis Hm : forall o y, In o meas -> nth_error (w_op v) o = Some y -> meas_op v x o y.
Hypothesis Hq1 : one_used (s_regs (c_q x)).
Hypothesis Hb1 : one_used (s_regs (c_b x)).
Hypothesis Hlen : 1 <= List.length (circuit_qubits x) <= 30.
(** A gate is on the last qubit. *)
Hypothesis Hlast : exists o y qs q, In o gates /\ nth_error (w_op v) o = Some y /\ o_qubits y = Some qs /\ In q qs /\ nth_error (circuit_qubits x) (List.length (circuit_qubits x) - 1) = Some q.

Lemma round_trip ext more' (w : world R) N : ended R ptrue peqb more' w -> w_active w = None -> w_exit w = [] ->
  List.length (circuit_qubits x) <= N -> List.length (circuit_bits x) <= N ->
  ssize_ok (zn (List.length (w_qubit w) + N + N) + 1) = true -> ssize_ok (zn (List.length (w_bit w) + N) + 1) = true ->
  exists q ks sc bits measured, qir_circuit R v c = Some q /\ to_qir_calls (param R) pnum R dbl q ext = Ok [mkMain R ks true] /\
    seen v c = Some sc /\ circuit_bits x = map IBit bits /\ same_runs sc bits measured (memory v) ks /\
    forall fs, calls_read R fs = ks -> exists w' x' sc' bits' measured', load_module R ptrue fs None w = (w', Ok (List.length (w_circ w))) /\
      ended R ptrue peqb more' w' /\ nth_error (w_circ w') (List.length (w_circ w)) = Some x' /\ seen w' (List.length (w_circ w)) = Some sc' /\
      List.length (circuit_qubits x') = List.length (circuit_qubits x) /\ circuit_bits x' = map IBit bits' /\
      same_runs sc' bits' measured' (memory w') ks.
Proof.
  intros E Ha Hx Hn1 Hn2 S1 S2.
  destruct (qir_means_full ptrue peqb more p v Hex Hvi Hsm c x Hc pnum dbl Hdbl gates meas Hops Hg Hm Hq1 Hb1 Hlen ext) as (q & a & ys & sc & bits & measured & ms & gs & H1 & H2 & H3 & H4 & H5 & H6 & H7 & H8 & H9 & Fg & (zs & Fz) & Fc).
  assert (Nq : NoDup (sc_qubits Ccring sc)).
  { destruct (link_seen ptrue peqb more p v (both_own R ptrue peqb more p Hex) Hvi Hsm c x Hc (all_ready v x pnum gates meas Hops Hg Hm)) as (sc0 & E3 & _ & _ & W & _).
    - intros H. rewrite H in Hlen. cbn in Hlen. lia.
    - assert (sc0 = sc) by congruence. subst sc0. exact (proj1 W). }
  assert (Lq : List.length (circuit_qubits x) = List.length (sc_qubits Ccring sc)) by (rewrite H4; apply map_length).
  assert (Lb : List.length (circuit_bits x) = List.length bits) by (rewrite H6; apply map_length).
  assert (Bs : exists bs, a = map gate_call bs /\ Forall base_ok bs /\ forall b j, In b bs -> In j (snd b) -> j < List.length (sc_qubits Ccring sc)).
  { clear -Fg Nq. induction Fg as [|k o a gs H F (bs & -> & F2 & F3)]; [exists []; split; [reflexivity|split; [constructor|intros b j []]]|].
    destruct (says_base sc k o Nq H) as (b & -> & Hb & Hj). exists (b :: bs). split; [reflexivity|]. split; [now constructor|]. intros b' j [<-|Hb']; [apply Hj|now apply F3]. }
  destruct Bs as (bs & -> & Bok & Bj).
  exists q, (Call R "__quantum__rt__initialize" [] :: map gate_call bs ++ map mz ys ++ map rec ys)%list, sc, bits, measured.
  do 5 (split; [assumption|]). intros fs Hfs.
  assert (Bp : base_program (calls_read R fs) bs ys (map snd ys)).
  { constructor; [exists 1; rewrite Hfs, map_map; reflexivity|exact Bok|apply incl_refl]. }
  assert (Gp : gate_places bs (List.length (circuit_qubits x))).
  { intros k. split.
    - intros Hk. destruct Hlast as (o & y & qs & t & L1 & L2 & L3 & L4 & L5).
      assert (X : exists b js, In b bs /\ snd b = js /\ Forall2 (at_place (s_regs (c_q x))) qs js).
      { clear -Fc L1 L2 L3. revert bs Fc. induction gates as [|o' gates' IH]; intros bs Fc; [contradiction|]. destruct bs as [|b bs]; [inversion Fc|]. cbn [map] in Fc. inversion Fc as [|? ? ? ? F1 F2]; subst.
        destruct L1 as [->|L1]; [|destruct (IH L1 bs F2) as (b' & js & X1 & X2); exists b', js; split; [now right|exact X2]].
        destruct F1 as (y' & nm & qs' & f & u & js & Y1 & _ & Y2 & _ & _ & Y3 & Y4). assert (y' = y) by congruence. subst y'. assert (qs' = qs) by congruence. subst qs'.
        destruct b as [[f' ps] js']. cbn [gate_call] in Y3. injection Y3 as _ Y3. apply args_inj in Y3. destruct Y3 as [_ ->]. exists (f', ps, js), js. split; [now left|]. auto. }
      destruct X as (b & js & X1 & X2 & X3).
      assert (Y : exists j, In j js /\ nth_error (circuit_qubits x) j = Some t).
      { clear -X3 L4 Hq1. induction X3 as [|q j qs js H F IH]; [contradiction|]. destruct L4 as [->|L4]; [exists j; split; [now left|exact (place_all _ _ _ Hq1 H)]|].
        destruct (IH L4) as (j' & J1 & J2). exists j'. split; [now right|exact J2]. }
      destruct Y as (j & J1 & J2). exists b, j. split; [exact X1|]. split; [now rewrite X2|].
      assert (j = List.length (circuit_qubits x) - 1).
      { rewrite H4 in J2, L5. apply (proj1 (NoDup_nth_error (map IQubit (sc_qubits Ccring sc)))); [|apply nth_error_Some; congruence|rewrite <- H4 in *; congruence].
        clear -Nq. induction Nq; cbn; constructor; auto. intros Hi. apply in_map_iff in Hi. destruct Hi as (z & [= ->] & Hz). contradiction. }
      lia.
    - intros (b & j & B1 & B2 & B3). specialize (Bj b j B1 B2). lia. }
  assert (Hy : Forall (fun m => fst m < List.length (circuit_qubits x) /\ snd m < N) ys).
  { rewrite Lq. rewrite Lb in Hn2. clear -Fz Hn2. induction Fz as [|z y zs ys [A B] F IH]; constructor; auto. split; [apply nth_error_Some; congruence|]. assert (snd y < List.length bits) by (apply nth_error_Some; congruence). lia. }
  destruct (load_means ptrue peqb more' w fs bs ys (map snd ys) (List.length (circuit_qubits x)) N E Ha Hx Bp Gp Hlen Hn1 Hy S1 S2) as (w' & x' & sc' & bits' & rec' & M1 & M2 & M3 & M4 & M5 & M6 & M7 & M8 & M9 & M10).
  exists w', x', sc', bits', rec'. split; [exact M1|]. split; [exact M2|]. split; [apply M3|]. split; [exact M5|]. split; [exact M7|]. split; [exact M8|]. rewrite <- Hfs. exact M10.
Qed.
End Trip.

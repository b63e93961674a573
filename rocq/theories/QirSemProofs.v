(** Runs of QIR programs: the gates, the measurements and the records of a compiled circuit. *)
From Coq Require Import List String Bool Arith NArith Reals Lra Lia.
From Verif Require Import Py CRing Cplx KernelModel KernelSpec KernelBits KernelProofs KernelProofs2 SimModel SimSpec SimReal SimProofs SimProofs2 SimProofs3
  MeasureSpec SampleSpec SampleProofs GateModel GateProofs2 QirModel QirSpec LinkSpec QirSemSpec.
Import ListNotations.
Local Open Scope R_scope.

(** ** Gates *)
Lemma half_sqrt2 : sqrt 2 / 2 = 1 / sqrt 2.
Proof.
  assert (H : 0 < sqrt 2) by (apply sqrt_lt_R0; lra). assert (E : sqrt 2 * sqrt 2 = 2) by (apply sqrt_sqrt; lra).
  replace (sqrt 2 / 2) with (sqrt 2 / (sqrt 2 * sqrt 2)) by now rewrite E. field. lra.
Qed.
Lemma pair_lt i : (i < 2)%N -> i = 0%N \/ i = 1%N.
Proof. lia. Qed.
Definition base_of (g : gate) : option (bool * gate1) :=
  match g with GOne g => Some (false, g) | GC g => Some (true, g) | _ => None end.
Lemma base_stands cn ps g f : stands cn ps g -> In (cn, f) function_of -> ~ In cn QirSpec.extra ->
  exists ctrl m g1, base_gate f ps = Some (ctrl, m) /\ base_of g = Some (ctrl, g1) /\
    forall i j, (i < 2)%N -> (j < 2)%N -> m i j = matrix1 g1 i j.
Proof.
  intros Hs Hf He.
  assert (Ha : forall a b c d (l : list (list C)), l = [[a; b]; [c; d]] -> forall i j, (i < 2)%N -> (j < 2)%N -> m2 a b c d i j = lit l i j).
  { intros a b c d l -> i j Hi Hj. destruct (pair_lt i Hi) as [->| ->], (pair_lt j Hj) as [->| ->]; reflexivity. }
  assert (Hh : forall i j, (i < 2)%N -> (j < 2)%N ->
    m2 (RtoC (1 / sqrt 2)) (RtoC (1 / sqrt 2)) (RtoC (1 / sqrt 2)) (RtoC (- (1 / sqrt 2))) i j = matrix1 GHadamard i j).
  { intros i j Hi Hj. cbn [matrix1]. rewrite half_sqrt2. destruct (pair_lt i Hi) as [->| ->], (pair_lt j Hj) as [->| ->];
      apply C_eq; cbv [m2 Cscale lit N.eqb Pos.eqb N.to_nat Pos.to_nat Pos.iter_op Nat.add nth Cmul Copp RtoC C1 Re Im fst snd]; ring. }
  assert (Hneg : forall a, RtoC (- a) = Copp (RtoC a)) by (intros a; apply C_eq; cbv [RtoC Copp Re Im fst snd]; ring).
  destruct Hs as [n ps g H|n ps g H| | |].
  - destruct H; cbn in Hf, He; repeat (destruct Hf as [Hf|Hf]; [try discriminate Hf; injection Hf as <-|]); try contradiction;
      try (exfalso; apply He; tauto); cbn [base_gate String.eqb Ascii.eqb Bool.eqb]; eexists _, _, _; (split; [reflexivity|]);
      (split; [reflexivity|]); try exact Hh; cbn [matrix1]; try (apply Ha; reflexivity).
    + apply Ha. now rewrite Hneg.
    + apply Ha. now replace (- a / 2) with (- (a / 2)) by field.
  - destruct H; cbn in Hf, He; repeat (destruct Hf as [Hf|Hf]; [try discriminate Hf; injection Hf as <-|]); try contradiction;
      try (exfalso; apply He; tauto); cbn [base_gate String.eqb Ascii.eqb Bool.eqb]; eexists _, _, _; (split; [reflexivity|]);
      (split; [reflexivity|]); cbn [matrix1]; try (apply Ha; reflexivity).
  - exfalso. apply He. cbn. tauto.
  - exfalso. apply He. cbn. tauto.
  - exfalso. apply He. cbn. tauto.
Qed.

(** The arguments of a call determine parameters and qubits. *)
Lemma args_inj ps : forall qs ps' qs', map (CDouble R) ps ++ map (CQubit R) qs = map (CDouble R) ps' ++ map (CQubit R) qs' -> ps = ps' /\ qs = qs'.
Proof.
  induction ps as [|a ps IH]; intros qs ps' qs' H.
  - destruct ps' as [|b ps']; [|destruct qs; discriminate H]. split; [reflexivity|]. cbn in H. revert qs' H.
    induction qs as [|q qs IH]; intros [|q' qs'] H; try discriminate; [reflexivity|]. injection H as -> H. f_equal. now apply IH.
  - destruct ps' as [|b ps']; [destruct qs'; discriminate H|]. injection H as -> H. destruct (IH _ _ _ H) as [-> ->]. auto.
Qed.

Lemma base_not_mz ps : base_gate "__quantum__qis__mz__body" ps = None.
Proof. destruct ps as [|a [|b ps]]; reflexivity. Qed.
Lemma base_not_init ps : base_gate "__quantum__rt__initialize" ps = None.
Proof. destruct ps as [|a [|b ps]]; reflexivity. Qed.
Lemma base_not_record ps : base_gate "__quantum__rt__result_record_output" ps = None.
Proof. destruct ps as [|a [|b ps]]; reflexivity. Qed.

(** A function of the instruction set does what the simulator's gate does. *)
Definition gate_size (g : gate) : nat := match g with GOne _ => 1 | GC _ | GSWAP => 2 | GCSWAP | GCCX => 3 end.
Lemma gate_does_iff n cn ps g f js v w : stands cn ps g -> In (cn, f) function_of -> ~ In cn QirSpec.extra ->
  NoDup js -> List.length js = gate_size g -> (forall j, In j js -> (N.of_nat j < n)%N) ->
  gate_does n f ps js v w <->
  (forall i, (i < 2 ^ n)%N -> w i = @gate_action Ccring false n (gate_kind g) (map N.of_nat js) v i).
Proof.
  intros Hs Hf He Nd Hl Hlt. destruct (base_stands cn ps g f Hs Hf He) as (ctrl & m & g1 & Eb & Eg & Em).
  assert (Ex : forall ts cs i, List.length ts = 1%nat ->
    @op_apply Ccring false n m ts cs v i = @op_apply Ccring false n (matrix1 g1) ts cs v i).
  { intros ts cs i H1. apply op_apply_mat. rewrite H1. exact Em. }
  destruct g as [g|g| | |]; try discriminate Eg; injection Eg as <- <-; cbn [gate_size] in Hl.
  - destruct js as [|t [|? ?]]; try discriminate Hl. cbn [map gate_kind gate_action]. split.
    + intros (ct & m' & Eb' & H). rewrite Eb in Eb'. injection Eb' as <- <-. destruct H as [_ H]. intros i Hi. rewrite (H i Hi). now apply Ex.
    + intros H. exists false, m. split; [exact Eb|]. split; [apply Hlt; now left|]. intros i Hi. rewrite (H i Hi). symmetry. now apply Ex.
  - destruct js as [|c [|t [|? ?]]]; try discriminate Hl. cbn [map gate_kind gate_action]. split.
    + intros (ct & m' & Eb' & H). rewrite Eb in Eb'. injection Eb' as <- <-. destruct H as (_ & _ & _ & H). intros i Hi. rewrite (H i Hi). now apply Ex.
    + intros H. exists true, m. split; [exact Eb|]. split; [apply Hlt; now left|]. split; [apply Hlt; right; now left|].
      split; [inversion Nd as [|? ? N1 _]; subst; intros ->; apply N1; now left|].
      intros i Hi. rewrite (H i Hi). symmetry. now apply Ex.
Qed.

(** ** Runs *)
(** Only the amplitudes inside the state matter. *)
Lemma gate_does_ext n f ps qs v v' w : (forall i, (i < 2 ^ n)%N -> v i = v' i) -> gate_does n f ps qs v w -> gate_does n f ps qs v' w.
Proof.
  intros Hv (ct & m & E & H). exists ct, m. split; [exact E|]. destruct ct, qs as [|c [|t [|? ?]]]; try contradiction.
  - destruct H as (H1 & H2 & H3 & H). repeat (split; [assumption|]). intros i Hi. rewrite (H i Hi).
    apply op_apply_vec; [intros q [<-|[]]; exact H2|exact Hi|exact Hv].
  - destruct H as (H1 & H). split; [assumption|]. intros i Hi. rewrite (H i Hi).
    apply op_apply_vec; [intros q [<-|[]]; exact H1|exact Hi|exact Hv].
Qed.
Lemma run_ext n ks s os p s' : qir_run n ks s os p s' -> forall v rs, (forall i, (i < 2 ^ n)%N -> amp s i = v i) -> (forall r, result s r = rs r) ->
  qir_run n ks (mkMach v rs (output s)) os p s'.
Proof.
  induction 1 as [v v' rs rs' out Hv Hr|ks s os p s' H IH|f ps qs ks v v' rs out os p s' Hg H IH|q r o ks v v' rs out os p s' Hq Hp Hc H IH|r ks v rs out os p s' H IH];
    intros v0 rs0 Ev Er; cbn [amp result output] in *.
  - constructor; [intros i Hi; rewrite (Hv i Hi); now apply Ev|intros k; now rewrite Hr].
  - constructor. now apply IH.
  - apply qr_gate with (v' := v'); [now apply (gate_does_ext n f ps qs v)|]. now apply IH.
  - rewrite (prob_ext n _ o v v0 Ev). rewrite (prob_ext n _ o v v0 Ev) in Hp. apply qr_mz with (v' := v'); [exact Hq|exact Hp| |].
    + intros i Hi. rewrite (Hc i Hi), (prob_ext n _ o v v0 Ev), (Ev i Hi). reflexivity.
    + apply IH; [reflexivity|]. intros k. unfold written. now rewrite Er.
  - constructor. rewrite <- Er. now apply IH.
Qed.
Lemma run_ext' n ks v rs v' rs' out os p s' : qir_run n ks (mkMach v rs out) os p s' -> (forall i, (i < 2 ^ n)%N -> v i = v' i) -> (forall r, rs r = rs' r) ->
  qir_run n ks (mkMach v' rs' out) os p s'.
Proof. intros H. exact (run_ext _ _ _ _ _ _ H v' rs'). Qed.

Lemma run_gate_inv n f ps js ks v rs out os p s' : base_gate f ps <> None ->
  qir_run n (Call R f (map (CDouble R) ps ++ map (CQubit R) js) :: ks) (mkMach v rs out) os p s' ->
  exists v', gate_does n f ps js v v' /\ qir_run n ks (mkMach v' rs out) os p s'.
Proof.
  intros Hb H. remember (Call R f (map (CDouble R) ps ++ map (CQubit R) js) :: ks) as l eqn:El. remember (mkMach v rs out) as s eqn:Es.
  destruct H as [v0 v1 rs0 rs1 out0 _ _|ks0 s0 os0 p0 s1 H|f0 ps0 qs0 ks0 v0 v1 rs0 out0 os0 p0 s1 Hg H|q r o ks0 v0 v1 rs0 out0 os0 p0 s1 _ _ _ H|r ks0 v0 rs0 out0 os0 p0 s1 H].
  - discriminate El.
  - injection El as <- _ _. now rewrite base_not_init in Hb.
  - injection El as -> E <-. injection Es as -> -> ->. destruct (args_inj _ _ _ _ E) as [-> ->]. eauto.
  - injection El as <- _ _. now rewrite base_not_mz in Hb.
  - injection El as <- _ _. now rewrite base_not_record in Hb.
Qed.
Lemma not_args q r ps qs : [CQubit R q; CResult R r] <> map (CDouble R) ps ++ map (CQubit R) qs.
Proof. destruct ps; [|discriminate]. destruct qs as [|a [|b qs]]; discriminate. Qed.
Lemma run_mz_inv n q r ks v rs out os p s' :
  qir_run n (Call R "__quantum__qis__mz__body" [CQubit R q; CResult R r] :: ks) (mkMach v rs out) os p s' ->
  exists o v' os' p', os = o :: os' /\ p = prob false n (N.of_nat q) o v * p' /\ (N.of_nat q < n)%N /\ 0 < prob false n (N.of_nat q) o v /\
    collapsed n (N.of_nat q) o v v' /\ qir_run n ks (mkMach v' (written r o rs) out) os' p' s'.
Proof.
  intros H. remember (Call R "__quantum__qis__mz__body" [CQubit R q; CResult R r] :: ks) as l eqn:El. remember (mkMach v rs out) as s eqn:Es.
  destruct H as [v0 v1 rs0 rs1 out0 _ _|ks0 s0 os0 p0 s1 H|f0 ps0 qs0 ks0 v0 v1 rs0 out0 os0 p0 s1 Hg H|q0 r0 o ks0 v0 v1 rs0 out0 os0 p0 s1 H1 H2 H3 H|r0 ks0 v0 rs0 out0 os0 p0 s1 H];
    try discriminate El.
  - injection El as _ E _. symmetry in E. now apply not_args in E.
  - injection El as -> -> <-. injection Es as -> -> ->. exists o, v1, os0, p0. auto 10.
Qed.
Lemma run_record_inv n r ks v rs out os p s' :
  qir_run n (Call R "__quantum__rt__result_record_output" [CResult R r] :: ks) (mkMach v rs out) os p s' ->
  qir_run n ks (mkMach v rs (out ++ [rs r])) os p s'.
Proof.
  intros H. remember (Call R "__quantum__rt__result_record_output" [CResult R r] :: ks) as l eqn:El. remember (mkMach v rs out) as s eqn:Es.
  destruct H as [v0 v1 rs0 rs1 out0 _ _|ks0 s0 os0 p0 s1 H|f0 ps0 qs0 ks0 v0 v1 rs0 out0 os0 p0 s1 Hg H|q0 r0 o ks0 v0 v1 rs0 out0 os0 p0 s1 H1 H2 H3 H|r0 ks0 v0 rs0 out0 os0 p0 s1 H];
    try discriminate El.
  - injection El as _ E _. destruct ps0; [|discriminate E]. destruct qs0; discriminate E.
  - injection El as -> <-. injection Es as -> -> ->. exact H.
Qed.
Lemma run_init_inv n ks s os p s' : qir_run n (Call R "__quantum__rt__initialize" [] :: ks) s os p s' -> qir_run n ks s os p s'.
Proof.
  intros H. remember (Call R "__quantum__rt__initialize" [] :: ks) as l eqn:El.
  destruct H as [v0 v1 rs0 rs1 out0 _ _|ks0 s0 os0 p0 s1 H|f0 ps0 qs0 ks0 v0 v1 rs0 out0 os0 p0 s1 (ct & m & E & _) H|q0 r0 o ks0 v0 v1 rs0 out0 os0 p0 s1 H1 H2 H3 H|r0 ks0 v0 rs0 out0 os0 p0 s1 H];
    try discriminate El.
  - injection El as <-. exact H.
  - injection El as -> _ _. now rewrite base_not_init in E.
Qed.

Section Circuit.
Variable sc : scirc Ccring.
Hypothesis Hnd : NoDup (sc_qubits Ccring sc).
Notation n := (SimModel.num_qubits Ccring sc).

(** The call says the operation. *)
Definition says_gate (k : call R) (o : sop Ccring) : Prop :=
  exists cn ps g f qs js, stands cn ps g /\ In (cn, f) function_of /\ ~ In cn QirSpec.extra /\
    k = Call R f (map (CDouble R) ps ++ map (CQubit R) js) /\
    so_kind Ccring o = gate_kind g /\ so_cond Ccring o = [] /\ so_qubits Ccring o = Some qs /\ NoDup qs /\ List.length qs = gate_size g /\
    Forall2 (fun q j => nth_error (sc_qubits Ccring sc) j = Some q) qs js.

Lemma places_nodup qs js : Forall2 (fun q k => nth_error (sc_qubits Ccring sc) k = Some q) qs js -> NoDup qs -> NoDup js.
Proof.
  intros F. induction F as [|q k qs ks H F IH]; intros Hq; [constructor|]. inversion Hq as [|? ? H1 H2]; subst. constructor; [|now apply IH].
  intros Hin. apply H1. clear -Hin F H. induction F as [|q' k' qs ks H' F IH]; [contradiction|]. destruct Hin as [->|Hin]; [left; congruence|right; now apply IH].
Qed.
Lemma places_lt qs js : Forall2 (fun q k => nth_error (sc_qubits Ccring sc) k = Some q) qs js -> forall j, In j js -> (N.of_nat j < n)%N.
Proof.
  intros F j Hj. unfold SimModel.num_qubits. assert (j < List.length (sc_qubits Ccring sc))%nat; [|lia]. apply nth_error_Some.
  induction F; [contradiction|]. destruct Hj as [->|Hj]; [congruence|auto].
Qed.
Lemma places_placed o qs js : so_qubits Ccring o = Some qs -> Forall2 (fun q k => nth_error (sc_qubits Ccring sc) k = Some q) qs js ->
  placed sc o (map N.of_nat js).
Proof. intros E F. exists qs. split; [exact E|]. clear -F. induction F as [|q k qs ks H _ IH]; cbn; constructor; [|exact IH]. now rewrite Nat2N.id. Qed.

Lemma says_gate_does k o : says_gate k o -> exists f ps js ts, k = Call R f (map (CDouble R) ps ++ map (CQubit R) js) /\ placed sc o ts /\
  so_cond Ccring o = [] /\
  forall v w, gate_does n f ps js v w <-> (forall i, (i < 2 ^ n)%N -> w i = @gate_action Ccring false n (so_kind Ccring o) ts v i).
Proof.
  intros (cn & ps & g & f & qs & js & H1 & H2 & H3 & H4 & H5 & H6 & H7 & H8 & H9 & F).
  exists f, ps, js, (map N.of_nat js). split; [exact H4|]. split; [now apply (places_placed o qs)|]. split; [exact H6|]. intros v w. rewrite H5.
  apply (gate_does_iff n cn ps g f js v w H1 H2 H3); [now apply (places_nodup qs)| |now apply (places_lt qs)].
  rewrite <- H9. clear -F. induction F; cbn; congruence.
Qed.

Lemma gates_forward a gs : Forall2 says_gate a gs -> forall bits v w, runs false sc bits gs v w ->
  forall ks rs out os p s', qir_run n ks (mkMach w rs out) os p s' -> qir_run n (a ++ ks) (mkMach v rs out) os p s'.
Proof.
  induction 1 as [|k o a gs H F IH]; intros bits v w Hr ks rs out os p s' Hk.
  - inversion Hr as [? ? E| |]; subst. cbn. eapply run_ext'; [exact Hk| |reflexivity]. exact E.
  - destruct (says_gate_does k o H) as (f & ps & js & ts & -> & Hp & Hc & Hg).
    inversion Hr as [|? ? ? ? Hb|? ? ts' ? u ? Hb Hp' Hu Hw]; subst; [rewrite Hc in Hb; destruct Hb as (? & [] & _)|].
    assert (ts' = ts) by (eapply placed_unique; eassumption). subst ts'. cbn [app].
    apply qr_gate with (v' := u); [now apply Hg|]. now apply (IH bits u w).
Qed.
Lemma gates_back a gs : Forall2 says_gate a gs -> forall bits v w, runs false sc bits gs v w ->
  forall ks rs out os p s', qir_run n (a ++ ks) (mkMach v rs out) os p s' -> qir_run n ks (mkMach w rs out) os p s'.
Proof.
  induction 1 as [|k o a gs H F IH]; intros bits v w Hr ks rs out os p s' Hk.
  - inversion Hr as [? ? E| |]; subst. cbn in Hk. eapply run_ext'; [exact Hk| |reflexivity]. intros i Hi. symmetry. now apply E.
  - destruct (says_gate_does k o H) as (f & ps & js & ts & -> & Hp & Hc & Hg).
    inversion Hr as [|? ? ? ? Hb|? ? ts' ? u ? Hb Hp' Hu Hw]; subst; [rewrite Hc in Hb; destruct Hb as (? & [] & _)|].
    assert (ts' = ts) by (eapply placed_unique; eassumption). subst ts'. cbn [app] in Hk.
    assert (Hu' : gate_does n f ps js v u) by now apply Hg. destruct (run_gate_inv n f ps js (a ++ ks) v rs out os p s') as (v' & Hg' & Hk'); [|exact Hk|].
    { destruct Hu' as (ct & m & Eb & _). now rewrite Eb. }
    apply (IH bits u w Hw). eapply run_ext'; [exact Hk'| |reflexivity]. intros i Hi. rewrite (proj1 (Hg v v') Hg' i Hi). symmetry. now apply Hu.
Qed.

(** ** Measurements and records; pairs of the places of a qubit and of a bit *)
Definition mz (x : nat * nat) : call R := Call R "__quantum__qis__mz__body" [CQubit R (fst x); CResult R (snd x)].
Definition rec (x : nat * nat) : call R := Call R "__quantum__rt__result_record_output" [CResult R (snd x)].
Definition stores (l : list (nat * bool)) (rs : nat -> option bool) : nat -> option bool :=
  fold_left (fun rs jo => written (fst jo) (snd jo) rs) l rs.
Definition at_n (l : list (nat * nat)) : list N := map (fun x => N.of_nat (fst x)) l.

Lemma mz_forward l : (forall x, In x l -> (N.of_nat (fst x) < n)%N) -> forall us os v w rs, collapses n (at_n l) us os v w -> normalised n v ->
  forall ks out os' p s', qir_run n ks (mkMach w (stores (combine (map snd l) os) rs) out) os' p s' ->
  qir_run n (map mz l ++ ks) (mkMach v rs out) (os ++ os') (joint n (at_n l) os v * p) s'.
Proof.
  induction l as [|x l IH]; intros Hl us os v w rs Hc Hv ks out os' p s' Hk.
  - inversion Hc as [? ? E|]; subst. cbn [at_n map app]. rewrite joint_nil. unfold normalised in Hv. rewrite Hv, Rmult_1_l.
    eapply run_ext'; [exact Hk| |reflexivity]. exact E.
  - inversion Hc as [|? ? u us' o os1 ? v' ? Ho Hp Hv' Hc']; subst.
    cbn [at_n map] in *. rewrite (joint_after n _ _ o os1 v v' Hp Hv'), Rmult_assoc. cbn [app].
    apply qr_mz with (v' := v'); [apply Hl; now left|exact Hp|exact Hv'|].
    apply (IH (fun y Hy => Hl y (or_intror Hy)) us' os1 v' w); [exact Hc'|now apply (after_normalised n _ o v v' Hp)|exact Hk].
Qed.
Lemma mz_back l : forall v rs ks out os p s', normalised n v -> qir_run n (map mz l ++ ks) (mkMach v rs out) os p s' ->
  exists os1 os2 p' w, os = os1 ++ os2 /\ List.length os1 = List.length l /\ p = joint n (at_n l) os1 v * p' /\
    qir_run n ks (mkMach w (stores (combine (map snd l) os1) rs) out) os2 p' s'.
Proof.
  induction l as [|x l IH]; intros v rs ks out os p s' Hv Hk.
  - exists [], os, p, v. cbn [at_n map app]. rewrite joint_nil. unfold normalised in Hv. rewrite Hv, Rmult_1_l. auto.
  - cbn [map app] in Hk. apply run_mz_inv in Hk. destruct Hk as (o & v' & os' & p' & -> & -> & _ & Hp & Hc & Hk).
    destruct (IH v' _ _ _ _ _ _ (after_normalised n _ o v v' Hp Hc) Hk) as (os1 & os2 & p2 & w & -> & Hl & -> & Hr).
    exists (o :: os1), os2, p2, w. split; [reflexivity|]. split; [cbn; lia|]. split; [|exact Hr].
    cbn [at_n map]. rewrite (joint_after n _ _ o os1 v v' Hp Hc). fold (at_n l). ring.
Qed.
Lemma rec_forward l : forall v rs out, qir_run n (map rec l) (mkMach v rs out) [] 1 (mkMach v rs (out ++ map (fun x => rs (snd x)) l)).
Proof.
  induction l as [|x l IH]; intros v rs out; cbn [map].
  - rewrite app_nil_r. now constructor.
  - constructor. specialize (IH v rs (out ++ [rs (snd x)])%list). rewrite <- app_assoc in IH. exact IH.
Qed.
Lemma rec_back l : forall v rs out os p s', qir_run n (map rec l) (mkMach v rs out) os p s' -> os = [] /\ p = 1.
Proof.
  induction l as [|x l IH]; intros v rs out os p s' H; cbn [map] in H.
  - inversion H; subst. auto.
  - apply run_record_inv in H. now apply IH in H.
Qed.
End Circuit.

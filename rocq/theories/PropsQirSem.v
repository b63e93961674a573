(** Property C71: the QIR program of a circuit does what simulating the circuit does. *)
From Coq Require Import List ZArith String Bool Arith NArith Reals Lia Lra.
From Verif Require Import Py CRing Cplx KernelSpec SimModel SimSpec SimReal SimProofs2 StateModel StateProofs GateModel QirModel QirSpec QirSemSpec QirMeantSpec QirSemProofs LinkModel RegisterModel
  WorldModel WorldSpec WorldSpec4 WorldCheck LinkSpec LinkProofs ExportModel ExportSpec ExportProofs ExportProofs2 PropsLink PropsQelib QirCircSpec QirSemProofs4.
Import ListNotations.
Local Open Scope nat_scope.
Local Open Scope string_scope.

(** ** A circuit built in any way with the library's classes: gates of the base profile and then measurements, no
    conditions, one register of qubits and one of bits in use.  Doubles are the parameters. *)
Theorem C71_means_partial :
  forall ptrue peqb more p (v : world R),
    executes R ptrue peqb (both_ok R ptrue peqb) p (start R (library_classes ++ more)%list) ->
    visits R ptrue peqb p (start R (library_classes ++ more)%list) v -> small R v ->
    forall c x, nth_error (w_circ v) c = Some x ->
    forall pnum dbl, (forall a, dbl (PNum a) = a) ->
    forall gates meas, c_ops x = (gates ++ meas)%list ->
    (forall o y, In o gates -> nth_error (w_op v) o = Some y -> base_op pnum v x o y) ->
    (forall o y, In o meas -> nth_error (w_op v) o = Some y -> meas_op v x o y) ->
    one_used (s_regs (c_q x)) -> one_used (s_regs (c_b x)) -> 1 <= List.length (circuit_qubits x) <= 30 ->
    forall ext, qir_meant pnum dbl ext v c x meas.
Proof. exact qir_means. Qed.
Print Assumptions C71_means_partial.

(** Hadamard, CX, RX(a), and a measurement of both qubits into two bits, in the other order. *)
Definition sem_prog (a : R) : prog R :=
  Seq (calls [CNew _ false (Some 2) (Some 2)])
      (With 0 (calls [CConstruct 4 None (AQ (Some [IQubit 0])); CConstruct 11 None (ACT (Some [IQubit 0]) (Some [IQubit 1]));
                      CConstruct 7 (Some [PNum a]) (AQ (Some [IQubit 1])); CConstruct 22 None (AQ (Some [IQubit 1; IQubit 0])); CStore _ 3 [IBit 0; IBit 1]])).
Definition sem_end (a : R) : world R := fst (run rtrue req (sem_prog a) (start R library_classes)).
Definition sem_world (a : R) : world R := ltac:(let w := eval vm_compute in (sem_end a) in exact w).
Lemma sem_eq a : sem_end a = sem_world a.
Proof. vm_compute. reflexivity. Qed.
Definition rnum (q : param R) : bool := match q with PNum _ => true | PVar _ => false end.
Definition rdbl (q : param R) : R := match q with PNum a => a | PVar _ => 0%R end.
Ltac is_comp :=
  split; [constructor; cbn;
    [repeat constructor
    |eexists; split; [reflexivity|]; intros k [= <-] [K|K]; try discriminate K; reflexivity
    |intros k [= <-]; cbn; try discriminate; intros _; discriminate]|];
  split; [intros (k & A & B); cbn in A; injection A as <-; discriminate B|];
  split; [intros (k & A & B); cbn in A; injection A as <-; discriminate B|];
  split; [repeat constructor|];
  intros n (k & A & B) Hn; cbn in A; injection A as <-; cbn in B; subst n; cbn in Hn; intuition discriminate.
Ltac is_base := constructor; [is_ready|is_comp|reflexivity].
Example C71_means_case (a : R) :
  executes R rtrue req (both_ok R rtrue req) (sem_prog a) (start R (library_classes ++ [])%list) /\
  visits R rtrue req (sem_prog a) (start R (library_classes ++ [])%list) (sem_end a) /\ small R (sem_end a) /\
  exists x, nth_error (w_circ (sem_end a)) 0 = Some x /\ c_ops x = ([0; 1; 2] ++ [3])%list /\
    (forall o y, In o [0; 1; 2] -> nth_error (w_op (sem_end a)) o = Some y -> base_op rnum (sem_end a) x o y) /\
    (forall o y, In o [3] -> nth_error (w_op (sem_end a)) o = Some y -> meas_op (sem_end a) x o y) /\
    one_used (s_regs (c_q x)) /\ one_used (s_regs (c_b x)) /\ circuit_qubits x = [IQubit 0; IQubit 1] /\
    exists q, qir_circuit R (sem_end a) 0 = Some q /\ to_qir_calls (param R) rnum R rdbl q false = Ok [mkMain R
      [Call R "__quantum__rt__initialize" []; Call R "__quantum__qis__h__body" [CQubit R 0]; Call R "__quantum__qis__cnot__body" [CQubit R 0; CQubit R 1];
       Call R "__quantum__qis__rx__body" [CDouble R a; CQubit R 1];
       Call R "__quantum__qis__mz__body" [CQubit R 1; CResult R 0]; Call R "__quantum__qis__mz__body" [CQubit R 0; CResult R 1];
       Call R "__quantum__rt__result_record_output" [CResult R 0]; Call R "__quantum__rt__result_record_output" [CResult R 1]] true].
Proof.
  rewrite app_nil_r. split; [|split; [|split; [|eexists; split; [|split; [|split; [|split; [|split; [|split; [|split]]]]]]]]].
  - apply (executesb_sound R rtrue req okr); [exact okr_sound|]. vm_compute. reflexivity.
  - right. left. reflexivity.
  - split; vm_compute; reflexivity.
  - rewrite sem_eq. reflexivity.
  - reflexivity.
  - rewrite sem_eq. intros o y Ho Ey. cbn [In] in Ho. destruct Ho as [<-|[<-|[<-|[]]]]; cbn in Ey; injection Ey as <-; is_base.
  - rewrite sem_eq. intros o y Ho Ey. cbn [In] in Ho. destruct Ho as [<-|[]]; cbn in Ey; injection Ey as <-. constructor.
    + is_ready.
    + split; [eexists; split; reflexivity|]. split; [cbn; lia|]. split; [eexists; reflexivity|].
      eexists; split; [reflexivity|]. repeat (constructor; [cbn; tauto|]). constructor.
    + reflexivity.
    + cbn. intros qs bs [= <-] [= <-]. cbn. lia.
  - intros r s Hr Hs. cbn in Hr, Hs. destruct Hr as [<-|[]], Hs as [<-|[]]. reflexivity.
  - intros r s Hr Hs. cbn in Hr, Hs. destruct Hr as [<-|[]], Hs as [<-|[]]. reflexivity.
  - reflexivity.
  - rewrite sem_eq. eexists. split; reflexivity.
Qed.

(** ** Where it is false *)
Lemma stored_runs rnd sc m st m' a : (forall k, uniform (rnd k)) -> wf_circ sc -> unitary_circ sc -> measurement_free sc -> (SimModel.num_qubits Ccring sc <= 30)%N ->
  simulate_set rnd sc false false m st = (m', mkCst (Some (mkArr [2 ^ SimModel.num_qubits Ccring sc]%N a)) None, Ok tt) ->
  runs false sc (m_bits Ccring m) (sc_ops Ccring sc) (zero_state Ccring) a.
Proof.
  intros Hr W U M Hn E. destruct (simulate_runs Ccring R Cgtb Cis0 Cinvsqrt rnd sc false m W M Hn) as (w & E1 & H).
  destruct (simulate_sets_state rnd sc false m st Hr W U Hn ltac:(discriminate)) as (m2 & w2 & E2 & E3 & _). unfold simulate_C in E3. rewrite E1 in E3.
  injection E3 as <- <-. rewrite E2 in E. injection E as _ E. now rewrite <- E.
Qed.

(** The random numbers 0, the run for them and the amplitudes that simulation stores, when nothing is measured. *)
Lemma same_runs_zero sc bits measured m0 ks : wf_circ sc -> unitary_circ sc -> measurement_free sc -> (SimModel.num_qubits Ccring sc <= 30)%N ->
  same_runs sc bits measured m0 ks -> exists os p s a, qir_run (SimModel.num_qubits Ccring sc) ks ground os p s /\
    runs false sc (m_bits Ccring m0) (sc_ops Ccring sc) (zero_state Ccring) a /\ forall i, (i < 2 ^ SimModel.num_qubits Ccring sc)%N -> amp s i = a i.
Proof.
  intros W U M Hn (drawn & D & S & _). assert (Hz : forall k : nat, uniform ((fun _ => 0%R) k)) by (intros _; unfold uniform; lra).
  destruct (D _ Hz) as (os & Hd & _). destruct (S _ os (mkCst None None) Hz Hd) as (p & s & Hrun & m & a & E & Ha & _).
  exists os, p, s, a. split; [exact Hrun|]. split; [exact (stored_runs _ _ _ _ _ _ Hz W U M Hn E)|exact Ha].
Qed.
(** What the call of X on qubit 0 leaves. *)
Lemma ran_x n os p s : qir_run n [Call R "__quantum__rt__initialize" []; Call R "__quantum__qis__x__body" [CQubit R 0]] ground os p s ->
  forall i, (i < 2 ^ n)%N -> amp s i = @op_apply Ccring false n (m2 C0 C1 C1 C0) [0%N] [] (zero_state Ccring) i.
Proof.
  intros Hr i Hi. apply run_init_inv in Hr. unfold ground in Hr.
  apply (run_gate_inv _ "__quantum__qis__x__body" [] [0] []) in Hr; [|discriminate]. destruct Hr as (v' & (ct & m & Eg & Hv) & Hr).
  injection Eg as <- <-. destruct Hv as [_ Hv]. inversion Hr as [a b e f g H1 H2| | | |]; subst. cbn [amp]. rewrite H1 by exact Hi. now apply Hv.
Qed.
Lemma ran_one (sc : scirc Ccring) bits o v a : runs false sc bits [o] v a ->
  (some_zero bits (so_cond Ccring o) /\ forall i, (i < 2 ^ SimModel.num_qubits Ccring sc)%N -> a i = v i) \/
  (exists ts, placed sc o ts /\ ~ some_zero bits (so_cond Ccring o) /\
     forall i, (i < 2 ^ SimModel.num_qubits Ccring sc)%N -> a i = gate_action false (SimModel.num_qubits Ccring sc) (so_kind Ccring o) ts v i).
Proof.
  intros H. inversion H as [|o0 ops v0 w0 H1 H2|o0 ops ts v0 v' w0 H1 H2 H3 H4]; subst.
  - inversion H2; subst. left. auto.
  - inversion H4; subst. right. exists ts. split; [exact H2|]. split; [exact H1|]. intros i Hi. rewrite H0 by exact Hi. now apply H3.
Qed.
Ltac amplitudes H := apply (f_equal Re) in H; cbv -[IZR Rmult Rplus Rminus Ropp] in H; lra.
Definition x_on (q : nat) (cond : list nat) : sop Ccring := mkSop Ccring (gate_kind (GOne GX)) (Some [q]) cond.

(** Two registers: the places of qubits are counted within their registers. *)
Definition regs_prog : prog R :=
  Seq (calls [CNew _ false (Some 1) None; CAddQReg _ 0 1 (LStr "anc")])
      (With 0 (calls [CConstruct 1 None (AQ (Some [IQubit 1]))])).
Definition regs_end : world R := fst (run rtrue req regs_prog (start R library_classes)).
Definition regs_world : world R := ltac:(let w := eval vm_compute in regs_end in exact w).
Lemma regs_eq : regs_end = regs_world.
Proof. vm_compute. reflexivity. Qed.
Theorem C71_registers_refuted :
  exists p (v : world R) x,
    executes R rtrue req (both_ok R rtrue req) p (start R (library_classes ++ [])%list) /\
    visits R rtrue req p (start R (library_classes ++ [])%list) v /\ small R v /\ nth_error (w_circ v) 0 = Some x /\
    (forall o y, In o (c_ops x) -> nth_error (w_op v) o = Some y -> base_op rnum v x o y) /\
    one_used (s_regs (c_b x)) /\ circuit_qubits x = [IQubit 0; IQubit 1] /\
    exists q calls sc, qir_circuit R v 0 = Some q /\ to_qir_calls (param R) rnum R rdbl q false = Ok [mkMain R calls true] /\ seen v 0 = Some sc /\
      forall bits measured, ~ same_runs sc bits measured (memory v) calls.
Proof.
  assert (Hex : executes R rtrue req (both_ok R rtrue req) regs_prog (start R (library_classes ++ [])%list)).
  { rewrite app_nil_r. apply (executesb_sound R rtrue req okr); [exact okr_sound|]. vm_compute. reflexivity. }
  assert (Hvi : visits R rtrue req regs_prog (start R (library_classes ++ [])%list) regs_end).
  { rewrite app_nil_r. right. left. reflexivity. }
  assert (Hsm : small R regs_end) by (split; vm_compute; reflexivity).
  assert (Hc : exists x, nth_error (w_circ regs_end) 0 = Some x) by (rewrite regs_eq; eexists; reflexivity). destruct Hc as [x Hc].
  assert (Hb : forall o y, In o (c_ops x) -> nth_error (w_op regs_end) o = Some y -> base_op rnum regs_end x o y).
  { rewrite regs_eq in Hc |- *. cbn in Hc. injection Hc as <-. intros o y Ho Ey. cbn [In c_ops] in Ho. destruct Ho as [<-|[]]; cbn in Ey; injection Ey as <-; is_base. }
  assert (Hbits : one_used (s_regs (c_b x))) by (rewrite regs_eq in Hc; cbn in Hc; injection Hc as <-; intros r s []).
  assert (Hq : circuit_qubits x = [IQubit 0; IQubit 1]) by (rewrite regs_eq in Hc; cbn in Hc; injection Hc as <-; reflexivity).
  exists regs_prog, regs_end, x. do 7 (split; [assumption|]).
  destruct (link_seen rtrue req [] regs_prog regs_end (both_own R rtrue req [] regs_prog Hex) Hvi Hsm 0 x Hc (fun o y Ho Ey => bo_ready _ _ _ _ _ (Hb o y Ho Ey)))
    as (sc & E3 & E4 & _ & W & U); [rewrite Hq; discriminate|].
  assert (Es : seen regs_end 0 = Some (mkScirc Ccring [0; 1] [x_on 1 []])) by (rewrite regs_eq; reflexivity).
  rewrite Es in E3. injection E3 as <-. clear Hex Hvi Hsm Hb Hc E4.
  assert (Ek : exists q ks, qir_circuit R regs_end 0 = Some q /\ to_qir_calls (param R) rnum R rdbl q false = Ok [mkMain R ks true] /\
    ks = [Call R "__quantum__rt__initialize" []; Call R "__quantum__qis__x__body" [CQubit R 0]]) by (rewrite regs_eq; do 2 eexists; repeat split).
  destruct Ek as (q & ks & K1 & K2 & K3). exists q, ks. eexists. split; [exact K1|]. split; [exact K2|]. split; [exact Es|].
  intros bits measured H. apply same_runs_zero in H; [|exact W|exact U|intros o [<-|[]]; reflexivity|cbn; lia].
  destruct H as (os & p & s & a & Hr & Ha & Hs). rewrite K3 in Hr. specialize (Hs 1%N eq_refl). rewrite (ran_x _ _ _ _ Hr 1%N eq_refl) in Hs.
  apply ran_one in Ha. destruct Ha as [[(b & [] & _) _]|(ts & Hp & _ & Ha)]. rewrite (Ha 1%N eq_refl) in Hs. clear -Hp Hs.
  destruct Hp as (qs & [= <-] & Hp). inversion Hp as [|? t ? ts' Ht Hp']; subst. inversion Hp'; subst. assert (t = 1%N).
  { destruct (N.to_nat t) as [|[|[|k]]] eqn:E; cbn in Ht; try discriminate Ht; lia. } subst t.
  amplitudes Hs.
Qed.
Print Assumptions C71_registers_refuted.


Ltac is_ready_cond := constructor; cbn;
  [repeat constructor
  |eexists; split; [reflexivity|]; intros k [= <-]; split; [intros _; repeat (apply NoDup_cons; [cbn; intuition discriminate|]); apply NoDup_nil|intros [H|H]; discriminate H]
  |intros k [= <-]; cbn; discriminate
  |intros l; discriminate
  |intros l [= <-]; repeat constructor; eexists; reflexivity].
(** A condition: the bit holds 0, so that simulation skips the operation; the QIR program has no conditions. *)
Definition cond_prog : prog R :=
  Seq (calls [CNew _ false (Some 1) (Some 2); CBitSet _ 1 false false])
      (With 0 (calls [CConstruct 1 None (AQ (Some [IQubit 0])); CCond _ 0 [IBit 1]])).
Definition cond_end : world R := fst (run rtrue req cond_prog (start R library_classes)).
Definition cond_world : world R := ltac:(let w := eval vm_compute in cond_end in exact w).
Lemma cond_eq : cond_end = cond_world.
Proof. vm_compute. reflexivity. Qed.
Theorem C71_condition_refuted :
  exists p (v : world R) x,
    executes R rtrue req (both_ok R rtrue req) p (start R (library_classes ++ [])%list) /\
    visits R rtrue req p (start R (library_classes ++ [])%list) v /\ small R v /\ nth_error (w_circ v) 0 = Some x /\
    (forall o y, In o (c_ops x) -> nth_error (w_op v) o = Some y -> ready v x o y /\ compilable R rnum false v y) /\
    one_used (s_regs (c_q x)) /\ one_used (s_regs (c_b x)) /\ circuit_qubits x = [IQubit 0] /\
    exists q calls sc, qir_circuit R v 0 = Some q /\ to_qir_calls (param R) rnum R rdbl q false = Ok [mkMain R calls true] /\ seen v 0 = Some sc /\
      forall bits measured, ~ same_runs sc bits measured (memory v) calls.
Proof.
  assert (Hex : executes R rtrue req (both_ok R rtrue req) cond_prog (start R (library_classes ++ [])%list)).
  { rewrite app_nil_r. apply (executesb_sound R rtrue req okr); [exact okr_sound|]. vm_compute. reflexivity. }
  assert (Hvi : visits R rtrue req cond_prog (start R (library_classes ++ [])%list) cond_end).
  { rewrite app_nil_r. right. left. reflexivity. }
  assert (Hsm : small R cond_end) by (split; vm_compute; reflexivity).
  assert (Hc : exists x, nth_error (w_circ cond_end) 0 = Some x) by (rewrite cond_eq; eexists; reflexivity). destruct Hc as [x Hc].
  assert (Hb : forall o y, In o (c_ops x) -> nth_error (w_op cond_end) o = Some y -> ready cond_end x o y /\ compilable R rnum false cond_end y).
  { rewrite cond_eq in Hc |- *. cbn in Hc. injection Hc as <-. intros o y Ho Ey. cbn [In c_ops] in Ho. destruct Ho as [<-|[]]; cbn in Ey; injection Ey as <-.
    split; [is_ready_cond|is_comp]. }
  assert (Hqs : one_used (s_regs (c_q x))).
  { rewrite cond_eq in Hc; cbn in Hc; injection Hc as <-. intros r s Hr Hs. cbn in Hr, Hs. destruct Hr as [<-|[]], Hs as [<-|[]]. reflexivity. }
  assert (Hbs : one_used (s_regs (c_b x))).
  { rewrite cond_eq in Hc; cbn in Hc; injection Hc as <-. intros r s Hr Hs. cbn in Hr, Hs. destruct Hr as [<-|[]], Hs as [<-|[]]. reflexivity. }
  assert (Hq : circuit_qubits x = [IQubit 0]) by (rewrite cond_eq in Hc; cbn in Hc; injection Hc as <-; reflexivity).
  exists cond_prog, cond_end, x. do 8 (split; [assumption|]).
  destruct (link_seen rtrue req [] cond_prog cond_end (both_own R rtrue req [] cond_prog Hex) Hvi Hsm 0 x Hc (fun o y Ho Ey => proj1 (Hb o y Ho Ey)))
    as (sc & E3 & E4 & _ & W & U); [rewrite Hq; discriminate|].
  assert (Es : seen cond_end 0 = Some (mkScirc Ccring [0] [x_on 0 [1]])) by (rewrite cond_eq; reflexivity).
  assert (Hm : m_bits Ccring (memory cond_end) 1 = Some false) by (rewrite cond_eq; reflexivity).
  rewrite Es in E3. injection E3 as <-. clear Hex Hvi Hsm Hb Hc E4.
  assert (Ek : exists q ks, qir_circuit R cond_end 0 = Some q /\ to_qir_calls (param R) rnum R rdbl q false = Ok [mkMain R ks true] /\
    ks = [Call R "__quantum__rt__initialize" []; Call R "__quantum__qis__x__body" [CQubit R 0]]) by (rewrite cond_eq; do 2 eexists; repeat split).
  destruct Ek as (q & ks & K1 & K2 & K3). exists q, ks. eexists. split; [exact K1|]. split; [exact K2|]. split; [exact Es|].
  intros bits measured H. apply same_runs_zero in H; [|exact W|exact U|intros o [<-|[]]; reflexivity|cbn; lia].
  destruct H as (os & p & s & a & Hr & Ha & Hs). rewrite K3 in Hr. specialize (Hs 0%N eq_refl). rewrite (ran_x _ _ _ _ Hr 0%N eq_refl) in Hs.
  apply ran_one in Ha. destruct Ha as [[_ Ha]|(ts & _ & Hz & _)]; [|destruct Hz; exists 1; split; [now left|exact Hm]].
  rewrite (Ha 0%N eq_refl) in Hs. clear -Hs. amplitudes Hs.
Qed.
Print Assumptions C71_condition_refuted.

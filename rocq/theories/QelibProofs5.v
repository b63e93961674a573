(** Proof that the statements of a program act as the gates of a circuit, up to a phase. *)
From Coq Require Import List String Bool Arith NArith Ascii Reals Lra Lia Ring.
From Verif Require Import Py CRing Cplx KernelSpec KernelBits KernelProofs2 SimModel SimSpec SimProofs SimProofs2 GateModel LinkSpec QasmModel QasmSpec QelibSpec QelibProofs QelibProofs2 QelibProofs3 QelibProofs4.
Import ListNotations.
Local Open Scope N_scope.

Add Ring Cring5 : C_ring.

(** ** Gates are linear, and look only at states below [2 ^ n] *)
Lemma put_lt le n i ts : forall s, (forall t, In t ts -> t < n) -> i < 2 ^ n -> put le n i ts s < 2 ^ n.
Proof.
  induction ts as [|t ts IH]; intros [|b s] Hl Hi; cbn [put]; try exact Hi. apply testbit_lt. intros p Hp. rewrite qset_testbit.
  destruct (N.eqb_spec p (bitpos le n t)) as [->|_].
  - assert (bitpos le n t < n) by (apply bitpos_lt, Hl; now left). lia.
  - apply (lt_testbit n); [apply IH; [intros; apply Hl; now right|exact Hi]|exact Hp].
Qed.
Ltac cring := match goal with |- ?a = ?b => change (@eq C a b) end; ring.
Lemma gate_scale le n g ts z (v u : N -> C) i : NoDup ts -> (forall t, In t ts -> t < n) -> List.length ts = arity g ->
  (forall j, j < 2 ^ n -> v j = Cmul z (u j)) -> i < 2 ^ n ->
  @gate_action Ccring le n (gate_kind g) ts v i = Cmul z (@gate_action Ccring le n (gate_kind g) ts u i).
Proof.
  intros Hd Hl Ha Hv Hi. rewrite <- (put_own le n i ts). rewrite !gate_at by (try assumption; now rewrite map_length).
  set (x := map (qbit le n i) ts).
  assert (E : forall y, v (put le n i ts y) = Cmul z (u (put le n i ts y))) by (intros y; apply Hv, put_lt; assumption).
  destruct g as [g|g| | |]; cbn [gate_local]; unfold mat_local; rewrite ?E; try reflexivity.
  - cring.
  - destruct (get x 0); [cring|reflexivity].
  - destruct (get x 0); rewrite ?E; reflexivity.
  - destruct (get x 0 && get x 1)%bool; rewrite ?E; reflexivity.
Qed.

Lemma run_app le n a b v : run le n (a ++ b) v = run le n b (run le n a v).
Proof. unfold run. apply fold_left_app. Qed.

Lemma distinct_true l : NoDup l -> distinct l = true.
Proof.
  induction 1 as [|x l H _ IH]; [reflexivity|]. cbn [distinct]. rewrite IH. destruct (existsb (Nat.eqb x) l) eqn:E; [|reflexivity].
  apply existsb_exists in E. destruct E as (y & H1 & H2). apply Nat.eqb_eq in H2. now subst.
Qed.

(** ** Statements *)
Section Statements.
Variable value : string -> option R.
Variable D : list gdef.
Hypothesis HD : file D.
Variable decl : list (string * nat).
Variable sc : scirc Ccring.
Hypothesis Hnd : NoDup (sc_qubits Ccring sc).
Notation n := (num_qubits Ccring sc).

Definition says (s : stmt) (o : sop Ccring) : Prop :=
  exists cn ps g k qs, stands cn ps g /\ In (cn, (s_name s, k)) qasm_names /\ In (s_name s) (map d_name D) /\
    all value (s_params s) = Some ps /\ so_kind Ccring o = gate_kind g /\ so_cond Ccring o = [] /\ so_qubits Ccring o = Some qs /\
    NoDup qs /\ List.length qs = arity g /\
    Forall2 (fun q t => exists i, resolve decl t = Some i /\ nth_error (sc_qubits Ccring sc) i = Some q) qs (s_operands s).

Lemma operands_found qs ts : Forall2 (fun q t => exists i, resolve decl t = Some i /\ nth_error (sc_qubits Ccring sc) i = Some q) qs ts ->
  exists ks, all (resolve decl) ts = Some ks /\ Forall2 (fun q k => nth_error (sc_qubits Ccring sc) k = Some q) qs ks.
Proof.
  induction 1 as [|q t qs ts (i & H1 & H2) _ (ks & IH1 & IH2)]; [exists []; split; [reflexivity|constructor]|].
  exists (i :: ks). cbn [all]. rewrite H1, IH1. split; [reflexivity|now constructor].
Qed.
Lemma places_distinct qs ks : Forall2 (fun q k => nth_error (sc_qubits Ccring sc) k = Some q) qs ks -> NoDup qs -> NoDup ks.
Proof.
  intros F. induction F as [|q k qs ks H F IH]; intros Hq; [constructor|]. inversion Hq as [|? ? H1 H2]; subst. constructor; [|now apply IH].
  intros Hin. apply H1. clear -Hin F H. induction F as [|q' k' qs ks H' F IH]; [contradiction|]. destruct Hin as [->|Hin]; [left; congruence|right; now apply IH].
Qed.
Lemma of_nat_nodup ks : NoDup ks -> NoDup (map N.of_nat ks).
Proof.
  induction 1 as [|k ks H _ IH]; [constructor|]. cbn. constructor; [|exact IH]. intros Hi. apply in_map_iff in Hi. destruct Hi as (j & E & Hj).
  apply Nat2N.inj in E. now subst.
Qed.

Lemma statement_runs s o : says s o -> exists prims, statement_does value D decl s = Some prims /\
  forall le, exists z, Cnorm2 z = 1%R /\ exists g ts, so_kind Ccring o = gate_kind g /\ so_cond Ccring o = [] /\ placed sc o ts /\
    NoDup ts /\ (forall t, In t ts -> t < n) /\ List.length ts = arity g /\
    forall v i, i < 2 ^ n -> run le n prims v i = Cmul z (@gate_action Ccring le n (gate_kind g) ts v i).
Proof.
  intros (cn & ps & g & [np nq] & qs & Hs & Hn & Hd & Hv & Hk & Hc & Hq & Nq & La & F).
  destruct (operands_found _ _ F) as (ks & Ek & Fk). pose proof (places_distinct _ _ Fk Nq) as Nk.
  destruct (gate_written D cn ps g _ np nq HD Hs Hn Hd) as (G & _ & _).
  assert (Lk : List.length (map N.of_nat ks) = arity g) by (rewrite map_length; rewrite <- La; clear -Fk; induction Fk; cbn; congruence).
  assert (Lt : forall t, In t (map N.of_nat ks) -> t < n).
  { intros t Ht. apply in_map_iff in Ht. destruct Ht as (k & <- & Hk'). unfold num_qubits.
    assert (k < List.length (sc_qubits Ccring sc))%nat; [|lia]. apply nth_error_Some. clear -Fk Hk'. induction Fk; [contradiction|].
    destruct Hk' as [->|Hk']; [congruence|auto]. }
  unfold statement_does. rewrite Hv, Ek, (distinct_true ks Nk).
  destruct (G false n _ Lk (of_nat_nodup ks Nk) Lt) as (prims & Em & _). exists prims. split; [exact Em|]. intros le.
  destruct (G le n _ Lk (of_nat_nodup ks Nk) Lt) as (prims' & Em' & z & Hz & E). assert (prims' = prims) by congruence. subst prims'.
  exists z. split; [exact Hz|]. exists g, (map N.of_nat ks). split; [exact Hk|]. split; [exact Hc|].
  split; [|split; [now apply of_nat_nodup|split; [exact Lt|split; [exact Lk|exact E]]]].
  exists qs. split; [exact Hq|]. clear -Fk. induction Fk as [|q k qs ks H _ IH]; cbn; constructor; [|exact IH]. now rewrite Nat2N.id.
Qed.

Lemma statements_scaled ss os : Forall2 says ss os -> exists prims, does value D decl (map LStmt ss) = Some prims /\
  forall le, exists z, Cnorm2 z = 1%R /\ forall bits u w z0 v, runs le sc bits os u w -> (forall i, i < 2 ^ n -> v i = Cmul z0 (u i)) ->
    forall i, i < 2 ^ n -> run le n prims v i = Cmul (Cmul z0 z) (w i).
Proof.
  induction 1 as [|s o ss os Hs _ (qs & IH1 & IH2)].
  { exists []. split; [reflexivity|]. intros le. exists C1. split; [apply Cnorm2_1|]. intros bits u w z0 v R Hv i Hi. inversion R as [? ? E| |]; subst.
    rewrite E by exact Hi. cbn [run fold_left]. rewrite Hv by exact Hi. clear. generalize (u i). intros x. change (Cmul z0 x = Cmul (Cmul z0 C1) x). ring. }
  destruct (statement_runs s o Hs) as (ps & E1 & E2). exists (ps ++ qs)%list. cbn [map does]. rewrite E1, IH1. split; [reflexivity|]. intros le.
  destruct (E2 le) as (z & Hz & g & ts & Hk & Hc & Hp & Nt & Lt & La & Hr). destruct (IH2 le) as (z' & Hz' & Hr').
  exists (Cmul z z'). split; [rewrite Cnorm2_mul, Hz, Hz'; ring|]. intros bits u w z0 v R Hv.
  inversion R as [|? ? ? ? Hb|? ? ts' ? u' ? Hb Hp' Hu' Hw]; subst.
  { exfalso. rewrite Hc in Hb. destruct Hb as (b & [] & _). }
  assert (ts' = ts) by (eapply placed_unique; eassumption). subst ts'. rewrite Hk in Hu'. rewrite run_app. intros i Hi.
  rewrite (Hr' bits u' w (Cmul z z0) (run le n ps v) Hw); [cring| |exact Hi].
  intros j Hj. rewrite (Hr v j Hj), (gate_scale le n g ts z0 v u j Nt Lt La Hv Hj), (Hu' j Hj). cring.
Qed.
Lemma statements_run ss os : Forall2 says ss os -> exists prims, does value D decl (map LStmt ss) = Some prims /\
  forall le, exists z, Cnorm2 z = 1%R /\ forall bits v w, runs le sc bits os v w -> forall i, i < 2 ^ n -> run le n prims v i = Cmul z (w i).
Proof.
  intros F. destruct (statements_scaled ss os F) as (prims & E & H). exists prims. split; [exact E|]. intros le. destruct (H le) as (z & Hz & Hr).
  exists z. split; [exact Hz|]. intros bits v w R i Hi. rewrite (Hr bits v w C1 v R); [|intros j _|exact Hi].
  - generalize (w i). intros a. cring.
  - assert (G : forall a : C, a = Cmul C1 a) by (intros a; ring). apply G.
Qed.
End Statements.

(** ** Lines before the statements *)
Fixpoint read_defs (D : list gdef) (ds : list string) : option (list gdef) :=
  match ds with [] => Some D | d :: ds' => match read_def D d with Some D' => read_defs D' ds' | None => None end end.
Lemma does_defs value rs ds ls : forall D, does value D rs (map LDef ds ++ ls) = match read_defs D ds with Some D' => does value D' rs ls | None => None end.
Proof. induction ds as [|d ds IH]; intros D; [reflexivity|]. cbn [map app does read_defs]. destruct (read_def D d); [apply IH|reflexivity]. Qed.
Lemma does_qregs value D qs ls : forall rs, does value D rs (map LQreg qs ++ ls) = does value D (rs ++ qs) ls.
Proof. induction qs as [|q qs IH]; intros rs; cbn [map app does]; [now rewrite app_nil_r|]. rewrite IH. now rewrite <- app_assoc. Qed.
Lemma does_cregs value D rs cs ls : does value D rs (map LCreg cs ++ ls) = does value D rs ls.
Proof. induction cs as [|c cs IH]; [reflexivity|exact IH]. Qed.

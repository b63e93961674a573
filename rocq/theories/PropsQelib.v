(** Property C70: the OpenQASM text of a circuit means what the circuit does. *)
From Coq Require Import List ZArith String Bool Arith NArith Reals Lia.
From Verif Require Import Py CRing Cplx SimModel SimSpec GateModel QasmModel QasmSpec QelibSpec QelibProofs4 LinkModel RegisterModel
  WorldModel WorldSpec WorldSpec4 WorldCheck LinkSpec ExportModel ExportSpec PropsLink TextSpec QelibProofs6.
Import ListNotations.
Local Open Scope nat_scope.
Local Open Scope string_scope.

(** ** Every name that is written for a gate is, in every file that defines it, a gate of as many parameters and qubits,
    and it acts on any of the qubits as the gate does, up to a phase. *)
Theorem C70_gates :
  forall D cn ps g q np nq, file D -> stands cn ps g -> In (cn, (q, (np, nq))) qasm_names -> In q (map d_name D) ->
    np = List.length ps /\ SimSpec.arity (gate_kind g) = Some nq /\
    forall le n ts, List.length ts = nq -> NoDup ts -> (forall t, In t ts -> (t < n)%N) ->
      exists prims, meaning D q ps ts = Some prims /\ up_to_phase n (QelibSpec.run le n prims) (@gate_action Ccring le n (gate_kind g) ts).
Proof. exact gate_meant. Qed.
Print Assumptions C70_gates.

(** ** A circuit built in any way with the gate classes of the library, without measurements and conditions, whose
    gates the included file defines: without definitions in the text. *)
Theorem C70_means_partial :
  forall ptrue peqb more p (v : world R),
    executes R ptrue peqb (both_ok R ptrue peqb) p (start R (library_classes ++ more)%list) ->
    visits R ptrue peqb p (start R (library_classes ++ more)%list) v -> small R v ->
    forall c x, nth_error (w_circ v) c = Some x ->
    forall show value lstr labels D,
    (forall o y, In o (c_ops x) -> nth_error (w_op v) o = Some y -> writable value show v x o y) ->
    circuit_qubits x <> [] -> (labels = true -> labels_fit lstr x) -> file D -> all_defined v x D ->
    meant value show lstr labels false D v c x.
Proof. exact means_plain. Qed.
Print Assumptions C70_means_partial.

(** ** With definitions in the text. *)
Theorem C70_definitions_partial :
  forall ptrue peqb more p (v : world R),
    executes R ptrue peqb (both_ok R ptrue peqb) p (start R (library_classes ++ more)%list) ->
    visits R ptrue peqb p (start R (library_classes ++ more)%list) v -> small R v ->
    forall c x, nth_error (w_circ v) c = Some x ->
    forall show value lstr labels D,
    (forall o y, In o (c_ops x) -> nth_error (w_op v) o = Some y -> writable value show v x o y) ->
    circuit_qubits x <> [] -> (labels = true -> labels_fit lstr x) -> file D -> others_defined v x D ->
    meant value show lstr labels true D v c x.
Proof. exact means_defined. Qed.
Print Assumptions C70_definitions_partial.

(** Hadamard, CX, RX(a), SWAP, CSWAP on three qubits in two registers. *)
Definition text_prog (a : R) : prog R :=
  Seq (calls [CNew _ false (Some 2) (Some 1); CAddQReg _ 0 1 (LStr "anc")])
      (With 0 (calls [CConstruct 4 None (AQ (Some [IQubit 0])); CConstruct 11 None (ACT (Some [IQubit 0]) (Some [IQubit 2]));
                      CConstruct 7 (Some [PNum a]) (AQ (Some [IQubit 1])); CConstruct 19 None (AQ (Some [IQubit 1; IQubit 2]));
                      CConstruct 20 None (AQ (Some [IQubit 2; IQubit 0; IQubit 1]))])).
Definition okr (w : world R) (y : WorldModel.call R) : bool :=
  classicalb R rtrue req w y && match y with CReset _ _ false | CSetQubits _ _ _ => false | _ => true end.
Lemma okr_sound w y : okr w y = true -> both_ok R rtrue req w y.
Proof.
  unfold okr. rewrite andb_true_iff. intros [H1 H2]. apply classicalb_sound in H1. split; [|exact H1].
  destruct y; try discriminate H2; cbn in *; repeat split; auto; try (destruct H1 as (H1 & _); exact H1); destruct keep; try discriminate; exact I.
Qed.
Definition text_end (a : R) : world R := fst (run rtrue req (text_prog a) (start R library_classes)).
Definition text_world (a : R) : world R := ltac:(let w := eval vm_compute in (text_end a) in exact w).
Lemma text_eq a : text_end a = text_world a.
Proof. vm_compute. reflexivity. Qed.
Definition text_show (_ : param R) : string := "0.5".
Definition text_value (a : R) (s : string) : option R := if String.eqb s "0.5" then Some a else None.
Definition text_lstr (l : label) : string := match l with LStr s => s | _ => "x" end.
Ltac is_writable := constructor;
  [is_ready|intros (k & A & B); cbn in A; injection A as <-; discriminate B|reflexivity
  |cbn; repeat constructor; try (intros ? [= <-]; reflexivity)].
Lemma text_defined a x : nth_error (w_circ (text_world a)) 0 = Some x ->
  all_defined (text_world a) x qelib1_later /\ others_defined (text_world a) x qelib1.
Proof.
  intros E. cbn in E. injection E as <-. split.
  - intros o n q k Ho (y & Hy & (c & Hc & <-)) Hq. cbn in Ho.
    destruct Ho as [<-|[<-|[<-|[<-|[<-|[]]]]]]; cbn in Hy; injection Hy as <-; cbn in Hc; injection Hc as <-; cbn in Hq;
    repeat destruct Hq as [Hq|Hq]; try discriminate Hq; try contradiction Hq; injection Hq as <- <-; cbn; tauto.
  - split; [cbn; intuition discriminate|]. split; [cbn; intuition discriminate|]. intros ns F. cbn in F.
    assert (N : ns = ["Hadamard"; "CX"; "RX"; "SWAP"; "CSWAP"]).
    { repeat match goal with H : Forall2 _ _ _ |- _ => inversion H; clear H; subst end.
      repeat match goal with H : named_op _ _ _ _ |- _ => destruct H as (? & H & (? & ? & <-)); cbn in H; injection H as <- end.
      cbn in *. repeat match goal with H : Some _ = Some _ |- _ => injection H as <- end. reflexivity. }
    subst ns. split; [cbn; intuition discriminate|]. split; [cbn; intuition discriminate|]. split; [cbn; lia|]. split; [cbn; lia|].
    intros n q k Hn Hq. cbn in Hn. destruct Hn as [<-|[<-|[<-|[<-|[<-|[]]]]]]; cbn in Hq;
    repeat destruct Hq as [Hq|Hq]; try discriminate Hq; try contradiction Hq; injection Hq as <- <-; cbn; tauto.
Qed.
Example C70_means_case (a : R) :
  executes R rtrue req (both_ok R rtrue req) (text_prog a) (start R (library_classes ++ [])%list) /\
  visits R rtrue req (text_prog a) (start R (library_classes ++ [])%list) (text_end a) /\ small R (text_end a) /\
  exists x, nth_error (w_circ (text_end a)) 0 = Some x /\ c_ops x = [0; 1; 2; 3; 4] /\ circuit_qubits x = [IQubit 0; IQubit 1; IQubit 2] /\
    (forall o y, In o (c_ops x) -> nth_error (w_op (text_end a)) o = Some y -> writable (text_value a) text_show (text_end a) x o y) /\
    file qelib1_later /\ all_defined (text_end a) x qelib1_later /\ file qelib1 /\ others_defined (text_end a) x qelib1 /\
    exists c, qasm_circuit R (text_end a) 0 = Some c /\ exists s, to_qasm (param R) text_show label label_true text_lstr "2.0" false true c = Ok s /\
      QasmSpec.read s = Some [LDef swap_text; LDef cswap_text; LQreg ("q0", 2); LQreg ("q1", 1); LCreg ("c", 1);
        LStmt (mkS "h" [] [("q0", 0)]); LStmt (mkS "cx" [] [("q0", 0); ("q1", 0)]); LStmt (mkS "rx" ["0.5"] [("q0", 1)]);
        LStmt (mkS "swap" [] [("q0", 1); ("q1", 0)]); LStmt (mkS "cswap" [] [("q1", 0); ("q0", 0); ("q0", 1)])].
Proof.
  rewrite app_nil_r. split; [|split; [|split; [|eexists; split; [|split; [|split; [|split]]]]]].
  - apply (executesb_sound R rtrue req okr); [exact okr_sound|]. vm_compute. reflexivity.
  - right. left. reflexivity.
  - split; vm_compute; reflexivity.
  - rewrite text_eq. reflexivity.
  - reflexivity.
  - reflexivity.
  - rewrite text_eq. intros o y Ho Ey. cbn in Ho. destruct Ho as [<-|[<-|[<-|[<-|[<-|[]]]]]]; cbn in Ey; injection Ey as <-; is_writable.
  - rewrite text_eq. match goal with |- context [all_defined _ ?x _] => destruct (text_defined a x) as (A & B); [reflexivity|] end.
    split; [|split; [exact A|split; [|split; [exact B|]]]].
    + exists [cry_def; crx_def; cswap_def; swap_def]. split; [reflexivity|]. split.
      * intros d Hd. cbn in *. tauto.
      * repeat (apply NoDup_cons; [cbn; intuition discriminate|]). apply NoDup_nil.
    + exists []. split; [reflexivity|]. split; [intros d []|apply NoDup_nil].
    + eexists. split; [vm_compute; reflexivity|]. eexists. split; vm_compute; reflexivity.
Qed.

(** ** What has no meaning *)
Definition one_gate (n : string) (ps : list (param R)) (qs : list nat) : acircuit (param R) label :=
  mkAC (param R) label [(LStr "q", [0; 1])] [] [mkA (param R) (Class n) ps (Some qs) (Some (List.length qs)) None].
Definition text (defs : bool) (c : acircuit (param R) label) : res string :=
  to_qasm (param R) text_show label label_true text_lstr "2.0" false defs c.

Definition the_text (r : res string) : string := match r with Ok s => s | Err _ => "" end.
Ltac text_of t := let x := eval vm_compute in (the_text t) in exact x.
Ltac read_lines := unfold program; match goal with |- match ?r with _ => _ end = _ => let x := eval vm_compute in r in change r with x end; cbv iota; cbn [does].

(** Rotation: the definition that is offered cannot be read, whatever file is included; without it, the files do not
    define the gate. *)
Definition rot_defined (a b c : R) : string := ltac:(text_of (text true (one_gate "Rotation" [PNum a; PNum b; PNum c] [0]))).
Definition rot_plain (a b c : R) : string := ltac:(text_of (text false (one_gate "Rotation" [PNum a; PNum b; PNum c] [0]))).
Theorem C70_rotation_refuted :
  forall a b c, exists t s s', t = one_gate "Rotation" [PNum a; PNum b; PNum c] [0] /\ text true t = Ok s /\ text false t = Ok s' /\
    forall value, (forall D, program value D s = None) /\ program value qelib1 s' = None /\ program value qelib1_later s' = None.
Proof.
  intros a b c. eexists _, (rot_defined a b c), (rot_plain a b c). split; [reflexivity|]. split; [vm_compute; reflexivity|]. split; [vm_compute; reflexivity|].
  intros value. unfold rot_defined, rot_plain. split; [intros D|split]; read_lines.
  - reflexivity.
  - rewrite statement_none; [reflexivity|discriminate|discriminate|cbn; intuition discriminate].
  - rewrite statement_none; [reflexivity|discriminate|discriminate|cbn; intuition discriminate].
Qed.
Print Assumptions C70_rotation_refuted.

(** CRotation: nothing defines it. *)
Definition crot_defined (a b c : R) : string := ltac:(text_of (text true (one_gate "CRotation" [PNum a; PNum b; PNum c] [0; 1]))).
Definition crot_plain (a b c : R) : string := ltac:(text_of (text false (one_gate "CRotation" [PNum a; PNum b; PNum c] [0; 1]))).
Theorem C70_crotation_refuted :
  forall a b c, exists t s s', t = one_gate "CRotation" [PNum a; PNum b; PNum c] [0; 1] /\ text true t = Ok s /\ text false t = Ok s' /\
    forall value D, file D -> program value D s = None /\ program value D s' = None.
Proof.
  intros a b c. eexists _, (crot_defined a b c), (crot_plain a b c). split; [reflexivity|]. split; [vm_compute; reflexivity|]. split; [vm_compute; reflexivity|].
  intros value D HD. unfold crot_defined, crot_plain.
  assert (N : ~ In "crot" (map d_name D)) by (intros H; apply (file_names D _ HD) in H; cbn in H; intuition discriminate).
  split; read_lines.
  - change (read_def D "// gate definition not implemented") with (Some D). cbv iota. rewrite statement_none; [reflexivity|discriminate|discriminate|exact N].
  - rewrite statement_none; [reflexivity|discriminate|discriminate|exact N].
Qed.
Print Assumptions C70_crotation_refuted.

(** CRX and CRY: not in the file of the article, and no definition is offered. *)
Definition c_text (n : string) (a : R) : string := the_text (text false (one_gate n [PNum a] [0; 1])).
Theorem C70_controlled_refuted :
  forall n a, In n ["CRX"; "CRY"] -> exists t s, t = one_gate n [PNum a] [0; 1] /\
    (forall defs, text defs t = Ok s) /\ forall value, program value qelib1 s = None.
Proof.
  intros n a Hn. exists (one_gate n [PNum a] [0; 1]), (c_text n a). split; [reflexivity|].
  cbn in Hn. destruct Hn as [<-|[<-|[]]]; (split; [intros [|]; vm_compute; reflexivity|]); intros value; read_lines;
  (rewrite statement_none; [reflexivity|discriminate|discriminate|]); cbn; intuition discriminate.
Qed.
Print Assumptions C70_controlled_refuted.

(** SWAP: without definitions the file of the article does not do; with definitions a file that has it does not do; and
    with definitions no file does if the gate is used twice. *)
Definition two_swaps : acircuit (param R) label :=
  mkAC (param R) label [(LStr "q", [0; 1])] [] (a_ops _ _ (one_gate "SWAP" [] [0; 1]) ++ a_ops _ _ (one_gate "SWAP" [] [0; 1])).
Definition swap_plain : string := ltac:(text_of (text false (one_gate "SWAP" [] [0; 1]))).
Definition swap_defined : string := ltac:(text_of (text true (one_gate "SWAP" [] [0; 1]))).
Definition swaps_defined : string := ltac:(text_of (text true two_swaps)).
Theorem C70_swap_refuted :
  exists s s' s2, text false (one_gate "SWAP" [] [0; 1]) = Ok s /\ text true (one_gate "SWAP" [] [0; 1]) = Ok s' /\ text true two_swaps = Ok s2 /\
    forall value, program value qelib1 s = None /\ program value qelib1_later s' = None /\ forall D, program value D s2 = None.
Proof.
  exists swap_plain, swap_defined, swaps_defined.
  split; [vm_compute; reflexivity|]. split; [vm_compute; reflexivity|]. split; [vm_compute; reflexivity|]. intros value.
  unfold swap_plain, swap_defined, swaps_defined. split; [|split; [|intros D]]; read_lines.
  - rewrite statement_none; [reflexivity|discriminate|discriminate|cbn; intuition discriminate].
  - reflexivity.
  - change "gate swap a, b { cx b, a; cx a, b; cx b, a; }" with swap_text. rewrite read_swap. destruct (existsb _ D); [reflexivity|].
    rewrite read_swap. reflexivity.
Qed.
Print Assumptions C70_swap_refuted.

(** A case of [C70_gates]: a controlled Hadamard. *)
Example C70_gates_case : file qelib1_later /\ stands "CHadamard" [] (GC GHadamard) /\ In ("CHadamard", ("ch", (0, 2))) qasm_names /\
  In "ch" (map d_name qelib1_later) /\ meaning qelib1_later "cx" [] [2%N; 0%N] = Some [PCX 2 0] /\
  exists prims, meaning qelib1_later "ch" [] [2%N; 0%N] = Some prims /\ List.length prims = 11.
Proof.
  split; [|split; [|split; [|split; [|split]]]].
  - exists [cry_def; crx_def; cswap_def; swap_def]. split; [reflexivity|]. split.
    + intros d Hd. cbn in *. tauto.
    + repeat (apply NoDup_cons; [cbn; intuition discriminate|]). apply NoDup_nil.
  - exact (st_ctrl _ _ _ st_H).
  - cbn. tauto.
  - cbn. tauto.
  - reflexivity.
  - eexists. split; reflexivity.
Qed.

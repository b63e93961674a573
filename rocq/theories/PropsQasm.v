(** Properties C48 and C49: the OpenQASM text of a circuit. *)
From Coq Require Import List String Bool Arith Ascii Lia.
From Verif Require Import Py QasmModel QasmSpec QasmProofs QasmProofs2.
Import ListNotations.
Local Open Scope string_scope.
Local Open Scope list_scope.

(** For the examples: parameters are numbers; labels are strings or numbers. *)
Inductive lab := LS (s : string) | LN (n : nat).
Definition ltrue (l : lab) : bool := match l with LS s => full s | LN n => negb (Nat.eqb n 0) end.
Definition ltext (l : lab) : string := match l with LS s => s | LN n => str n end.
Definition qasm (labels defs : bool) (c : acircuit nat lab) : res string := to_qasm nat str lab ltrue ltext "2.0" labels defs c.
Definition gate (n : string) (ps qs : list nat) : aop nat := mkA nat (Class n) ps (Some qs) (Some (List.length qs)) None.
Definition made (n : string) (ps qs : list nat) : aop nat := mkA nat (Custom n) ps (Some qs) (Some (List.length qs)) None.
(** Registers a with qubits 5 and 3, b with qubit 8, and m with bit 2. *)
Definition sample : acircuit nat lab := mkAC nat lab [(LS "a", [5; 3]); (LS "b", [8])] [(LS "m", [2])]
  [gate "CX" [] [8; 3]; gate "Rotation" [1; 2; 3] [5]; made "Mine" [] [3; 5; 8]; gate "RX" [7] [8]].
Definition sample_lines (n0 n1 m : string) (ds : list string) : list line :=
  map LDef ds ++ [LQreg (n0, 2); LQreg (n1, 1); LCreg (m, 1); LStmt (mkS "cx" [] [(n1, 0); (n0, 1)]); LStmt (mkS "rot" ["1"; "2"; "3"] [(n0, 0)]);
   LStmt (mkS "mine" [] [(n0, 1); (n0, 0); (n1, 0)]); LStmt (mkS "rx" ["7"] [(n1, 0)])].
Definition read_ok (r : res string) : option (list line) := match r with Ok s => read s | Err _ => None end.
Lemma sample_shaped : Forall (shaped nat) (a_ops nat lab sample).
Proof.
  cbn [a_ops sample]. repeat (apply Forall_cons; [|]); [| | | |apply Forall_nil].
  - exists "cx", 0, 2. split; [cbn; tauto|]. split; [reflexivity|]. intros qs [= <-] _. reflexivity.
  - exists "rot", 3, 1. split; [cbn; tauto|]. split; [reflexivity|]. intros qs [= <-] _. reflexivity.
  - split; [split; reflexivity|]. cbn. intuition discriminate.
  - exists "rx", 1, 1. split; [cbn; tauto|]. split; [reflexivity|]. intros qs [= <-] _. reflexivity.
Qed.
Lemma sample_qubits : Forall (fun op => incl (the_qubits nat op) (aqubits nat lab sample)) (a_ops nat lab sample).
Proof. cbn [a_ops sample]. repeat (apply Forall_cons; [intros q Hq; cbn in Hq |- *; tauto|]). apply Forall_nil. Qed.
Lemma sample_plain : Forall (fun op => Forall plain (map str (a_params nat op))) (a_ops nat lab sample).
Proof. cbn [a_ops sample]. repeat constructor. Qed.
Lemma sample_labelled : labelled nat lab ltrue ltext true sample.
Proof. intros _. split; [repeat constructor|]. cbn. repeat constructor; cbn; intuition discriminate. Qed.

(** ** C48 *)
(** The text declares the quantum and the classical registers in order with their sizes under names that are all
    different, and every operand names a declared place, the place of the operation's qubit in [circuit.qubits].
    Different qubits have different operands. Missing: labels that are false values or have the same text. *)
Theorem C48_operands_partial (P : Type) (show : P -> string) (L : Type) (truthy : L -> bool) (lstr : L -> string) : forall version labels defs c s,
  to_qasm P show L truthy lstr version labels defs c = Ok s -> labelled P L truthy lstr labels c ->
  Forall (shaped P) (a_ops P L c) -> Forall (fun op => incl (the_qubits P op) (aqubits P L c)) (a_ops P L c) ->
  Forall (fun op => Forall plain (map show (a_params P op))) (a_ops P L c) ->
  exists ds qs cs ss, read s = Some (map LDef ds ++ map LQreg qs ++ map LCreg cs ++ map LStmt ss) /\
    NoDup (map fst (qs ++ cs)) /\
    map snd qs = map (fun r => List.length (snd r)) (a_qregs P L c) /\ map snd cs = map (fun r => List.length (snd r)) (a_cregs P L c) /\
    Forall2 (fun op s => Forall2 (fun q o => exists k, resolve qs o = Some k /\ nth_error (aqubits P L c) k = Some q) (the_qubits P op) (s_operands s)) (a_ops P L c) ss /\
    (forall q q' o, In (q, o) (named P (a_ops P L c) ss) -> In (q', o) (named P (a_ops P L c) ss) -> q = q').
Proof. exact (operands_read P show L truthy lstr). Qed.
Print Assumptions C48_operands_partial.
Example C48_operands_case : labelled nat lab ltrue ltext true sample /\ Forall (shaped nat) (a_ops nat lab sample) /\
  Forall (fun op => incl (the_qubits nat op) (aqubits nat lab sample)) (a_ops nat lab sample) /\
  Forall (fun op => Forall plain (map str (a_params nat op))) (a_ops nat lab sample) /\
  read_ok (qasm true false sample) = Some (sample_lines "a" "b" "m" []) /\ read_ok (qasm false false sample) = Some (sample_lines "q0" "q1" "c" []).
Proof. split; [exact sample_labelled|]. split; [exact sample_shaped|]. split; [exact sample_qubits|]. split; [exact sample_plain|]. split; vm_compute; reflexivity. Qed.

(** With labels the statement without conditions on them is false. *)
Definition C48_claim (c : acircuit nat lab) (ls : list line) : Prop :=
  exists ds qs cs ss, ls = map LDef ds ++ map LQreg qs ++ map LCreg cs ++ map LStmt ss /\ NoDup (map fst (qs ++ cs)) /\ Forall2 (states nat str qs (aqubits nat lab c)) (a_ops nat lab c) ss.
Definition C48_fails (c : acircuit nat lab) : Prop :=
  NoDup (map fst (a_qregs nat lab c)) /\ NoDup (map fst (a_cregs nat lab c)) /\ NoDup (aqubits nat lab c) /\ Forall (shaped nat) (a_ops nat lab c) /\
  Forall (fun op => incl (the_qubits nat op) (aqubits nat lab c)) (a_ops nat lab c) /\
  exists s ls, qasm true false c = Ok s /\ read s = Some ls /\ ~ C48_claim c ls.
Lemma parts ds qs cs ss : let ls := map LDef ds ++ map LQreg qs ++ map LCreg cs ++ map LStmt ss in
  List.concat (map (fun l => match l with LQreg x => [x] | _ => [] end) ls) = qs /\
  List.concat (map (fun l => match l with LCreg x => [x] | _ => [] end) ls) = cs /\
  List.concat (map (fun l => match l with LStmt x => [x] | _ => [] end) ls) = ss /\
  List.concat (map (fun l => match l with LDef x => [x] | _ => [] end) ls) = ds.
Proof.
  cbn. rewrite !map_app, !concat_app, !map_map.
  assert (A : forall {A B} (l : list A), List.concat (map (fun _ => @nil B) l) = []) by (intros A B l; induction l; auto).
  assert (O : forall {A} (l : list A), List.concat (map (fun x => [x]) l) = l) by (intros A' l; induction l; cbn; congruence).
  rewrite !A, !O, !app_nil_r. auto.
Qed.
Lemma x_shaped n : shaped nat (gate "X" [] [n]).
Proof. exists "x", 0, 1. split; [cbn; tauto|]. split; [reflexivity|]. intros qs [= <-] _. reflexivity. Qed.
(** Label 0: the register is declared q and the operand says 0. *)
Theorem C48_false_label_refuted : exists c, C48_fails c.
Proof.
  exists (mkAC nat lab [(LN 0, [4])] [] [gate "X" [] [4]]). split; [repeat constructor; auto|]. split; [constructor|]. split; [repeat constructor; auto|]. split; [constructor; [apply x_shaped|constructor]|].
  split; [constructor; [intros q H; exact H|constructor]|]. eexists _, _. split; [vm_compute; reflexivity|]. split; [vm_compute; reflexivity|].
  intros (ds & qs & cs & ss & E & _ & F). destruct (parts ds qs cs ss) as (Eq & _ & Es & _). rewrite <- E in Eq, Es. cbn in Eq, Es. subst qs ss. inversion F as [|? ? ? ? (_ & _ & O)]; subst. cbn in O. inversion O as [|? ? ? ? (k & R & _)]; subst. discriminate R.
Qed.
(** Labels 1 and "1": both registers have the same name. *)
Theorem C48_same_text_refuted : exists c, C48_fails c /\ Forall (fun x => ltrue (fst x) = true) (a_qregs nat lab c).
Proof.
  exists (mkAC nat lab [(LN 1, [4]); (LS "1", [6])] [] [gate "X" [] [6]]). split; [|repeat constructor]. split; [repeat constructor; cbn; intuition discriminate|]. split; [constructor|]. split; [repeat constructor; cbn; intuition discriminate|]. split; [constructor; [apply x_shaped|constructor]|].
  split; [constructor; [intros q H; cbn in *; tauto|constructor]|]. eexists _, _. split; [vm_compute; reflexivity|]. split; [vm_compute; reflexivity|].
  intros (ds & qs & cs & ss & E & _ & F). destruct (parts ds qs cs ss) as (Eq & _ & Es & _). rewrite <- E in Eq, Es. cbn in Eq, Es. subst qs ss. inversion F as [|? ? ? ? (_ & _ & O)]; subst. cbn in O. inversion O as [|? ? ? ? (k & R & Nk)]; subst. cbn in R. injection R as <-. discriminate Nk.
Qed.
(** A quantum and a classical register may have the same label; the text declares the name twice. *)
Theorem C48_same_label_refuted : exists c, C48_fails c /\ Forall (fun x => ltrue (fst x) = true) (a_qregs nat lab c ++ a_cregs nat lab c) /\ NoDup (map (fun x => ltext (fst x)) (a_qregs nat lab c)) /\ NoDup (map (fun x => ltext (fst x)) (a_cregs nat lab c)).
Proof.
  exists (mkAC nat lab [(LS "r", [4])] [(LS "r", [7])] [gate "X" [] [4]]). split; [|split; [repeat constructor|split; repeat constructor; auto]]. split; [repeat constructor; auto|]. split; [repeat constructor; auto|]. split; [repeat constructor; auto|]. split; [constructor; [apply x_shaped|constructor]|].
  split; [constructor; [intros q H; cbn in *; tauto|constructor]|]. eexists _, _. split; [vm_compute; reflexivity|]. split; [vm_compute; reflexivity|].
  intros (ds & qs & cs & ss & E & N & _). destruct (parts ds qs cs ss) as (Eq & Ec & _). rewrite <- E in Eq, Ec. cbn in Eq, Ec. subst qs cs. cbn in N. inversion N as [|? ? Hn _]; subst. apply Hn. now left.
Qed.

(** ** C49 *)
(** The text is the header, the definitions of the gates that have one, once per use and if asked for, the registers, and
    one statement per operation in order with its name, parameters and operands. Missing: operations without text,
    parameters of operations made from circuits, one definition per gate, definitions of operations made from circuits,
    conditions. *)
Theorem C49_statements_partial (P : Type) (show : P -> string) (L : Type) (truthy : L -> bool) (lstr : L -> string) : forall version labels defs c s,
  to_qasm P show L truthy lstr version labels defs c = Ok s -> labelled P L truthy lstr labels c ->
  Forall (shaped P) (a_ops P L c) -> Forall (fun op => incl (the_qubits P op) (aqubits P L c)) (a_ops P L c) ->
  Forall (fun op => Forall plain (map show (a_params P op))) (a_ops P L c) ->
  exists ds qs cs ss, read s = Some (map LDef ds ++ map LQreg qs ++ map LCreg cs ++ map LStmt ss) /\
    NoDup (map fst (qs ++ cs)) /\ map snd qs = map (fun r => List.length (snd r)) (a_qregs P L c) /\ map snd cs = map (fun r => List.length (snd r)) (a_cregs P L c) /\
    Forall2 (states P show qs (aqubits P L c)) (a_ops P L c) ss /\
    ds = (if defs then List.concat (map (definition_of P) (a_ops P L c)) else []).
Proof. exact (text_read P show L truthy lstr). Qed.
Print Assumptions C49_statements_partial.
Example C49_statements_case : read_ok (qasm true true sample) = Some (sample_lines "a" "b" "m" (definition_of nat (gate "Rotation" [1; 2; 3] [5]))).
Proof. vm_compute. reflexivity. Qed.

(** Circuits of gates and operations made from circuits, on their own qubits, are written. *)
Theorem C49_written (P : Type) (show : P -> string) (L : Type) (truthy : L -> bool) (lstr : L -> string) : forall labels defs c,
  Forall (shaped P) (a_ops P L c) -> Forall (fun op => incl (the_qubits P op) (aqubits P L c)) (a_ops P L c) ->
  exists s, to_qasm P show L truthy lstr "2.0" labels defs c = Ok s.
Proof. exact (writes P show L truthy lstr). Qed.
Print Assumptions C49_written.
Example C49_written_case : Forall (shaped nat) (a_ops nat lab sample) /\ Forall (fun op => incl (the_qubits nat op) (aqubits nat lab sample)) (a_ops nat lab sample).
Proof. exact (conj sample_shaped sample_qubits). Qed.

(** Any other class, in particular measurements and barriers, makes the whole circuit fail. *)
Theorem C49_refused (P : Type) (show : P -> string) (L : Type) (truthy : L -> bool) (lstr : L -> string) : forall labels defs qr cr pre op post n,
  Forall (shaped P) pre -> Forall (fun op => incl (the_qubits P op) (List.concat (map snd qr))) pre ->
  a_class P op = Class n -> ~ In n (map fst qasm_names) ->
  to_qasm P show L truthy lstr "2.0" labels defs (mkAC P L qr cr (pre ++ op :: post)) = Err NotImplementedError.
Proof. exact (refuses P show L truthy lstr). Qed.
Print Assumptions C49_refused.
Example C49_refused_case : qasm false false (mkAC nat lab (a_qregs nat lab sample) [] (a_ops nat lab sample ++ gate "Barrier" [] [5] :: [gate "X" [] [3]])) = Err NotImplementedError.
Proof.
  apply C49_refused with (n := "Barrier"); [exact sample_shaped|exact sample_qubits|reflexivity|cbn; intuition discriminate].
Qed.
Theorem C49_measurement_refuted : exists c, Forall (fun op => incl (the_qubits nat op) (aqubits nat lab c)) (a_ops nat lab c) /\ List.length (a_ops nat lab c) = 2 /\ qasm false false c = Err NotImplementedError.
Proof.
  exists (mkAC nat lab [(LS "a", [5])] [(LS "m", [2])] [gate "X" [] [5]; gate "Measurement" [] [5]]). split; [repeat (apply Forall_cons; [intros q H; cbn in *; tauto|]); apply Forall_nil|]. split; reflexivity.
Qed.

(** Conditions leave no trace in the text of any circuit. *)
Theorem C49_conditions_lost (P : Type) (show : P -> string) (L : Type) (truthy : L -> bool) (lstr : L -> string) : forall version labels defs c,
  to_qasm P show L truthy lstr version labels defs (unconditional P L c) = to_qasm P show L truthy lstr version labels defs c.
Proof. exact (unconditioned P show L truthy lstr). Qed.
Print Assumptions C49_conditions_lost.
Definition conditioned : acircuit nat lab := mkAC nat lab [(LS "a", [5])] [(LS "m", [2])] [mkA nat (Class "X") [] (Some [5]) (Some 1) (Some [2])].
Example C49_conditions_case : unconditional nat lab conditioned <> conditioned /\ exists s, qasm false false conditioned = Ok s.
Proof. split; [discriminate|eexists; vm_compute; reflexivity]. Qed.
Theorem C49_conditions_refuted : exists c c' s, map (a_cond nat) (a_ops nat lab c) <> map (a_cond nat) (a_ops nat lab c') /\ qasm false false c = Ok s /\ qasm false false c' = Ok s.
Proof. exists conditioned, (unconditional nat lab conditioned). eexists. split; [discriminate|]. split; vm_compute; reflexivity. Qed.

(** A gate that is used twice is defined twice. *)
Theorem C49_defined_once_refuted : exists c ds rest, Forall (shaped nat) (a_ops nat lab c) /\ read_ok (qasm false true c) = Some (map LDef ds ++ rest) /\ ~ NoDup ds.
Proof.
  exists (mkAC nat lab [(LS "a", [5; 6])] [] [gate "SWAP" [] [5; 6]; gate "SWAP" [] [6; 5]]), (List.concat (map (definition_of nat) [gate "SWAP" [] [5; 6]; gate "SWAP" [] [6; 5]])). eexists. split.
  - repeat (apply Forall_cons; [exists "swap", 0, 2; split; [cbn; tauto|]; split; [reflexivity|]; intros qs [= <-] _; reflexivity|]). apply Forall_nil.
  - split; [vm_compute; reflexivity|]. intros N. vm_compute in N. inversion N as [|? ? H _]; subst. apply H. now left.
Qed.
(** An operation made from a circuit is never defined. *)
Theorem C49_made_undefined_refuted : exists c ls, Forall (shaped nat) (a_ops nat lab c) /\ a_ops nat lab c <> [] /\ read_ok (qasm false true c) = Some ls /\ forall d, ~ In (LDef d) ls.
Proof.
  exists (mkAC nat lab [(LS "a", [5])] [] [made "Mine" [] [5]]). eexists. split; [|split; [discriminate|split; [vm_compute; reflexivity|]]].
  - apply Forall_cons; [split; [split; reflexivity|cbn; intuition discriminate]|apply Forall_nil].
  - intros d H. cbn in H. intuition discriminate.
Qed.
(** Nor are its parameters written. *)
Theorem C49_made_parameters_refuted : exists c c' s, map (a_params nat) (a_ops nat lab c) <> map (a_params nat) (a_ops nat lab c') /\ qasm false false c = Ok s /\ qasm false false c' = Ok s.
Proof.
  exists (mkAC nat lab [(LS "a", [5])] [] [made "Mine" [1] [5]]), (mkAC nat lab [(LS "a", [5])] [] [made "Mine" [2] [5]]). eexists. split; [discriminate|]. split; vm_compute; reflexivity.
Qed.

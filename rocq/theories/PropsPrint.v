(** C85: the printed forms of objects. *)
From Coq Require Import List ZArith Ascii String Bool Arith.
From Verif Require Import Py CounterModel CounterProofs PrimModel PrimSpec QasmModel PrintModel PrintSpec PrintProofs.
Import ListNotations.
Local Open Scope string_scope.

(** The printed form of a label, read as a literal, is the label. *)
Theorem C85_label : forall s : string, literal (repr_str s) = Some s.
Proof. exact literal_repr. Qed.
Print Assumptions C85_label.

(** Qubits and bits that print alike have the same class, label, id and value. *)
Theorem C85_primitives :
  forall (N : Type) (ntrue : N -> bool) (nstr : N -> string) (p q : prim N),
    plain_id N p -> plain_id N q -> repr_prim N ntrue nstr p = repr_prim N ntrue nstr q -> p = q.
Proof. exact prim_repr_inj. Qed.
Print Assumptions C85_primitives.

(** The last word of the printed form is the value of a bit that has one, else the id. *)
Theorem C85_value :
  forall (N : Type) (ntrue : N -> bool) (nstr : N -> string) (p : prim N),
    plain_id N p -> (match p with PQubit _ _ i | PBit _ _ i _ => without " " i | PVariable _ _ _ => False end) ->
    last_word (repr_prim N ntrue nstr p) = told p ++ ">".
Proof. exact prim_last. Qed.
Print Assumptions C85_value.

(** After any program that makes objects and sets their labels and values, two qubits or bits print alike
    only if they are one object. *)
Theorem C85_objects :
  forall (N : Type) (ntrue : N -> bool) (nstr : N -> string) (alphanum : list ascii)
    (xs : list (pcall N)) (len bat : option nat) (a b : nat) p q,
    NoDup alphanum -> (forall c, In c (chars_of ",>") -> ~ In c alphanum) ->
    nth_error (snd (pruns N alphanum xs (reset alphanum len bat, []))) a = Some p ->
    nth_error (snd (pruns N alphanum xs (reset alphanum len bat, []))) b = Some q ->
    has_id N p -> has_id N q ->
    (repr_prim N ntrue nstr p = repr_prim N ntrue nstr q <-> a = b).
Proof. exact objects_print. Qed.
Print Assumptions C85_objects.

(** Registers that print alike, in either form, are of one class and hold the same items in one order. *)
Theorem C85_registers :
  forall (N : Type) (ntrue : N -> bool) (nstr : N -> string) (c c' : string) (l m : list (prim N)),
    identifier c -> identifier c' -> Forall (plain_id N) l -> Forall (plain_id N) m ->
    repr_register N ntrue nstr c l = repr_register N ntrue nstr c' m \/
    str_register N ntrue nstr c l = str_register N ntrue nstr c' m ->
    c = c' /\ l = m.
Proof.
  exact (fun N t s c c' l m Hc Hc' Hl Hm H => match H with
    | or_introl E => register_repr_inj N t s c c' l m Hc Hc' Hl Hm E
    | or_intror E => register_str_inj N t s c c' l m Hc Hc' Hl Hm E end).
Qed.
Print Assumptions C85_registers.

(** Operations with numbers as parameters that print alike have the same class, parameters, qubits and
    condition.  For parameters that are variables see [C85_parameters_refuted]. *)
Theorem C85_operations_partial :
  forall (N : Type) (ntrue : N -> bool) (nstr : N -> string) (o o' : shown N),
    (forall x y, nstr x = nstr y -> x = y) -> (forall x, nstr x <> "") -> (forall x, without ",]" (nstr x)) ->
    identifier (base N o) -> identifier (base N o') -> identifier (cls N o) -> identifier (cls N o') ->
    numbers N (params N o) -> numbers N (params N o') ->
    all_plain N (qubits N o) -> all_plain N (qubits N o') -> all_plain N (cond N o) -> all_plain N (cond N o') ->
    repr_op N ntrue nstr o = repr_op N ntrue nstr o' ->
    base N o = base N o' /\ cls N o = cls N o' /\ params N o = params N o' /\ qubits N o = qubits N o' /\
    conditions N (cond N o) = conditions N (cond N o').
Proof. exact (fun N t s o o' H1 H2 H3 => op_repr_inj N t s H1 H2 H3 o o'). Qed.
Print Assumptions C85_operations_partial.

(** Measurements that print alike have the same qubits and bits.  For the condition see
    [C85_measurement_refuted]. *)
Theorem C85_measurements_partial :
  forall (N : Type) (ntrue : N -> bool) (nstr : N -> string) qs bs c qs' bs' c',
    all_plain N qs -> all_plain N bs -> all_plain N qs' -> all_plain N bs' ->
    repr_measurement N ntrue nstr qs bs c = repr_measurement N ntrue nstr qs' bs' c' -> qs = qs' /\ bs = bs'.
Proof. exact measurement_repr_inj. Qed.
Print Assumptions C85_measurements_partial.

(** Circuits that print alike are of one class and agree in the numbers of qubits, bits and operations. *)
Theorem C85_circuits :
  forall (c c' : string) (q q' b b' n n' : nat), identifier c -> identifier c' ->
    repr_circuit c q b n = repr_circuit c' q' b' n' -> c = c' /\ q = q' /\ b = b' /\ n = n'.
Proof. exact (fun c c' q q' b b' n n' => circuit_repr_inj c q b n c' q' b' n'). Qed.
Print Assumptions C85_circuits.

(** ** Examples and refutations, with counting numbers as numbers *)
Definition ntruth (n : nat) : bool := negb (Nat.eqb n 0).
Notation rp := (repr_prim nat ntruth str).
Ltac plain := repeat constructor; cbn; intros c H; repeat destruct H as [<-|H]; try contradiction; cbn; intuition discriminate.

(** A label with both quotes and a line break. *)
Definition odd_label : string := "it's " ++ String (ascii_of_nat 34) ("x\" ++ String (ascii_of_nat 10) (String (ascii_of_nat 160) "")).
Example C85_label_case :
  repr_str odd_label = "'it\'s " ++ String (ascii_of_nat 34) "x\\\n\xa0'" /\
  repr_str "it's" = String (ascii_of_nat 34) ("it's" ++ String (ascii_of_nat 34) "") /\
  literal (repr_str odd_label) = Some odd_label.
Proof. split; [|split]; vm_compute; reflexivity. Qed.

(** The forms that tests/test_primitives.py expects, and a label made to look like the rest of a form. *)
Example C85_primitives_case :
  rp (PQubit nat "ananas" "0abc") = "<qubit: 'ananas', id: 0abc>" /\
  rp (PBit nat "banana" "0abd" (Some false)) = "<bit: 'banana', id: 0abd, value: 0>" /\
  rp (PBit nat "banana, id: 0abd, value: 0" "0abd" None) = "<bit: 'banana, id: 0abd, value: 0', id: 0abd>" /\
  plain_id nat (PBit nat "banana, id: 0abd, value: 0" "0abd" None).
Proof. split; [vm_compute; reflexivity|]. split; [vm_compute; reflexivity|]. split; [vm_compute; reflexivity|]. plain. Qed.

Example C85_value_case :
  last_word (rp (PBit nat "a b, value: 1>" "0abd" (Some false))) = "0>" /\ last_word (rp (PQubit nat "a b" "0abd")) = "0abd>" /\
  without " " "0abd".
Proof. split; [vm_compute; reflexivity|]. split; [vm_compute; reflexivity|]. plain. Qed.

Definition print_calls : list (pcall nat) :=
  [PNewQubit nat "q" 0; PNewBit nat "q" 3; PNewQubit nat "q" 1; PNewBit nat "q" 0; PBitSet nat 1 true false; PSetLabel nat 0 "p"; PSetLabel nat 0 "q"].
Example C85_objects_case :
  NoDup default_alphanum /\ (forall c, In c (chars_of ",>") -> ~ In c default_alphanum) /\
  map rp (snd (pruns nat default_alphanum print_calls (reset default_alphanum (Some 2) (Some 5), []))) =
    ["<qubit: 'q', id: q0>"; "<bit: 'q', id: q2, value: 1>"; "<qubit: 'q', id: q1>"; "<bit: 'q', id: qa>"].
Proof.
  split; [exact default_alphanum_nodup|]. split; [|vm_compute; reflexivity].
  intros c H. repeat destruct H as [<-|H]; try contradiction; vm_compute; intuition discriminate.
Qed.

Definition two_qubits : list (prim nat) := [PQubit nat "0" "q0a1"; PQubit nat "1" "q0a2"].
Definition a_bit : prim nat := PBit nat "0" "q0a3" (Some true).
Example C85_registers_case :
  repr_register nat ntruth str "QuantumRegister" two_qubits = "<QuantumRegister, data=[<qubit: '0', id: q0a1>, <qubit: '1', id: q0a2>]>" /\
  str_register nat ntruth str "ClassicalRegister" [a_bit] = "ClassicalRegister([<bit: '0', id: q0a3, value: 1>])" /\
  identifier "QuantumRegister" /\ Forall (plain_id nat) two_qubits.
Proof. split; [vm_compute; reflexivity|]. split; [vm_compute; reflexivity|]. split; plain. Qed.

Definition a_crx : shown nat := mkShown nat "ParametricControlledOperation" "CRX" (Some [Number nat 3]) (Some two_qubits) (Some [a_bit]).
Definition an_x : shown nat := mkShown nat "Operation" "X" None (Some [PQubit nat "0" "q0a1"]) None.
Example C85_operations_case :
  repr_op nat ntruth str a_crx = "<ParametricControlledOperation: CRX([3]), qubits=(<qubit: '0', id: q0a1>, <qubit: '1', id: q0a2>), conditional: (<bit: '0', id: q0a3, value: 1>,)>" /\
  repr_op nat ntruth str an_x = "<Operation: X, qubits=(<qubit: '0', id: q0a1>,)>" /\
  repr_op nat ntruth str (mkShown nat "Operation" "X" None None (Some [])) = "<Operation: X, qubits=None>" /\
  (forall x y, str x = str y -> x = y) /\ (forall x, str x <> "") /\ (forall x, without ",]" (str x)) /\
  identifier (base nat a_crx) /\ identifier (cls nat a_crx) /\ numbers nat (params nat a_crx) /\
  all_plain nat (qubits nat a_crx) /\ all_plain nat (cond nat a_crx).
Proof.
  split; [vm_compute; reflexivity|]. split; [vm_compute; reflexivity|]. split; [vm_compute; reflexivity|].
  split; [exact QasmProofs.str_inj|].
  split; [intros x E; destruct (QasmProofs.str_word x) as [F _]; rewrite E in F; discriminate F|].
  split. { intros x c Hc Hin. pose proof (chars_all _ _ (proj2 (QasmProofs.str_word x)) c Hin) as H. cbn in Hc. destruct Hc as [<-|[<-|[]]]; discriminate H. }
  split; [plain|]. split; [plain|]. split; [cbn; auto|]. split; plain.
Qed.
Example C85_measurements_case :
  repr_measurement nat ntruth str None None None = "<Measurement, qubits=None, measured=None>" /\
  repr_measurement nat ntruth str (Some [PQubit nat "0" "q0a1"]) (Some [a_bit]) None =
    "<Measurement, qubits=(<qubit: '0', id: q0a1>,), measured=(<bit: '0', id: q0a3, value: 1>,)>" /\
  all_plain nat (Some [a_bit]).
Proof. split; [vm_compute; reflexivity|]. split; [vm_compute; reflexivity|]. plain. Qed.
Example C85_circuits_case :
  repr_circuit "ParametricCircuit" 12 0 3 = "<ParametricCircuit: qubits=12, bits=0, ops=3>" /\ identifier "ParametricCircuit".
Proof. split; [vm_compute; reflexivity|]. plain. Qed.

(** Setting a variable to 0 is not seen in its printed form. *)
Theorem C85_variable_refuted :
  exists (xs ys : list (pcall nat)) p q,
    snd (pruns nat default_alphanum xs (reset default_alphanum None None, [])) = [p] /\
    snd (pruns nat default_alphanum ys (reset default_alphanum None None, [])) = [q] /\
    p = PVariable nat "a" (Some 0) /\ q = PVariable nat "a" None /\ rp p = rp q.
Proof.
  exists [PNewVariable nat "a"; PVarSet nat 0 0], [PNewVariable nat "a"]. eexists _, _.
  split; [vm_compute; reflexivity|]. split; [vm_compute; reflexivity|]. repeat split; reflexivity.
Qed.
Print Assumptions C85_variable_refuted.

(** A variable with a value prints as the number, and unset variables with odd names print alike. *)
Theorem C85_parameters_refuted :
  exists o o' u u' : shown nat,
    params nat o = Some [Var nat (PVariable nat "a" (Some 3))] /\ params nat o' = Some [Number nat 3] /\
    repr_op nat ntruth str o = repr_op nat ntruth str o' /\
    params nat u = Some (map (fun s => Var nat (PVariable nat s None)) ["a}, {a"; "b"; "c"]) /\
    params nat u' = Some (map (fun s => Var nat (PVariable nat s None)) ["a"; "a}, {b"; "c"]) /\
    repr_op nat ntruth str u = repr_op nat ntruth str u'.
Proof.
  exists (mkShown nat "ParametricOperation" "RX" (Some [Var nat (PVariable nat "a" (Some 3))]) None None).
  exists (mkShown nat "ParametricOperation" "RX" (Some [Number nat 3]) None None).
  exists (mkShown nat "ParametricOperation" "Rotation" (Some (map (fun s => Var nat (PVariable nat s None)) ["a}, {a"; "b"; "c"])) None None).
  exists (mkShown nat "ParametricOperation" "Rotation" (Some (map (fun s => Var nat (PVariable nat s None)) ["a"; "a}, {b"; "c"])) None None).
  repeat split; vm_compute; reflexivity.
Qed.
Print Assumptions C85_parameters_refuted.

(** The condition of a measurement is not printed. *)
Theorem C85_measurement_refuted :
  exists qs bs (c : list (prim nat)), c <> [] /\
    repr_measurement nat ntruth str (Some qs) bs (Some c) = repr_measurement nat ntruth str (Some qs) bs None.
Proof. exists two_qubits, None, [a_bit]. split; [discriminate|reflexivity]. Qed.
Print Assumptions C85_measurement_refuted.

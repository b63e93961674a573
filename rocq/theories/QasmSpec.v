(** Reading OpenQASM 2.0 as far as the writer uses it, and what a program means for qubits. *)
From Coq Require Import List String Bool Arith Ascii Decimal DecimalString.
From Verif Require Import Py QasmModel.
Import ListNotations.
Local Open Scope string_scope.
Local Open Scope list_scope.

(** The lines of a text. *)
Fixpoint lines (s : string) : list string :=
  match s with
  | "" => [""]
  | String c s' => if Ascii.eqb c (ascii_of_nat 10) then "" :: lines s'
                   else match lines s' with h :: t => String c h :: t | [] => [] end
  end.
Definition full (s : string) : bool := match s with "" => false | _ => true end.
(** The text before the first character in question, and the rest. *)
Fixpoint cut (p : ascii -> bool) (s : string) : string * string :=
  match s with
  | "" => ("", "")
  | String c s' => if p c then ("", s) else let (a, b) := cut p s' in (String c a, b)
  end.
Definition is (c d : ascii) : bool := Ascii.eqb d c.
(** A list separated by commas, with a blank after each comma. *)
Fixpoint commas (s : string) : list string :=
  match s with
  | "" => [""]
  | String c s' =>
      if Ascii.eqb c "," then match s' with String d s'' => if is " " d then "" :: commas s'' else "" :: commas s' | "" => "" :: commas s' end
      else match commas s' with h :: t => String c h :: t | [] => [] end
  end.
Definition number (s : string) : option nat := option_map Nat.of_uint (NilZero.uint_of_string s).
(** [name[number]] *)
Definition indexed (s : string) : option (string * nat) :=
  match cut (is "[") s with
  | (a, String _ t) => match cut (is "]") t with
                       | (d, String _ "") => option_map (fun n => (a, n)) (number d)
                       | _ => None
                       end
  | _ => None
  end.
Fixpoint all {A B} (f : A -> option B) (l : list A) : option (list B) :=
  match l with
  | [] => Some []
  | x :: l' => match f x, all f l' with Some y, Some m => Some (y :: m) | _, _ => None end
  end.
Record stmt := mkS { s_name : string; s_params : list string; s_operands : list (string * nat) }.
Definition after (n : string) (ps : list string) (s : string) : option stmt :=
  match s with
  | "" => Some (mkS n ps [])
  | String c t => if is " " c then option_map (mkS n ps) (all indexed (commas t)) else None
  end.
(** [name operands] or [name(parameters) operands]; the operands may be missing *)
Definition statement (s : string) : option stmt :=
  match cut (fun c => is "(" c || is " " c)%bool s with
  | (n, String c t) =>
      if is "(" c then match cut (is ")") t with (ps, String _ r) => after n (commas ps) r | _ => None end
      else after n [] (String c t)
  | (n, "") => after n [] ""
  end.
(** A line without its semicolon. *)
Fixpoint unsemi (s : string) : option string :=
  match s with
  | "" => None
  | String c "" => if is ";" c then Some "" else None
  | String c s' => option_map (String c) (unsemi s')
  end.
Inductive line := LQreg (x : string * nat) | LCreg (x : string * nat) | LDef (s : string) | LStmt (s : stmt).
Definition read_line (s : string) : option line :=
  if (String.prefix "gate " s || String.prefix "//" s)%bool then Some (LDef s)
  else match unsemi s with
       | None => None
       | Some b =>
           match cut (is " ") b with
           | (k, String _ t) => if String.eqb k "qreg" then option_map LQreg (indexed t)
                                else if String.eqb k "creg" then option_map LCreg (indexed t)
                                else option_map LStmt (statement b)
           | _ => option_map LStmt (statement b)
           end
       end.
(** A text with the right two lines first; empty lines do not count. *)
Definition read (s : string) : option (list line) :=
  match filter full (lines s) with
  | a :: b :: rest => if (String.eqb a "OPENQASM 2.0;" && String.eqb b "include ""qelib1.inc"";")%bool then all read_line rest else None
  | _ => None
  end.

(** The place, among all declared qubits in order, that an operand names. *)
Fixpoint resolve (rs : list (string * nat)) (o : string * nat) : option nat :=
  match rs with
  | [] => None
  | (n, k) :: rs' => if String.eqb n (fst o) then (if Nat.ltb (snd o) k then Some (snd o) else None)
                     else option_map (Nat.add k) (resolve rs' o)
  end.

(** The names of the gates in OpenQASM, with numbers of parameters and qubits. *)
Definition qasm_names : list (string * (string * (nat * nat))) :=
  [("Identity", ("id", (0, 1))); ("X", ("x", (0, 1))); ("Y", ("y", (0, 1))); ("Z", ("z", (0, 1)));
   ("Hadamard", ("h", (0, 1))); ("S", ("s", (0, 1))); ("T", ("t", (0, 1)));
   ("RX", ("rx", (1, 1))); ("RY", ("ry", (1, 1))); ("RZ", ("rz", (1, 1))); ("Rotation", ("rot", (3, 1)));
   ("CX", ("cx", (0, 2))); ("CY", ("cy", (0, 2))); ("CZ", ("cz", (0, 2))); ("CHadamard", ("ch", (0, 2)));
   ("CRX", ("crx", (1, 2))); ("CRY", ("cry", (1, 2))); ("CRZ", ("crz", (1, 2))); ("CRotation", ("crot", (3, 2)));
   ("SWAP", ("swap", (0, 2))); ("CSWAP", ("cswap", (0, 3))); ("CCX", ("ccx", (0, 3)))].

(** Letters, digits and underscores. *)
Definition word_char (c : ascii) : bool :=
  let n := nat_of_ascii c in
  ((Nat.leb 48 n && Nat.leb n 57) || (Nat.leb 65 n && Nat.leb n 90) || (Nat.leb 97 n && Nat.leb n 122) || Nat.eqb n 95)%bool.
Fixpoint chars (p : ascii -> bool) (s : string) : bool := match s with "" => true | String c s' => (p c && chars p s')%bool end.
Definition word (s : string) : Prop := full s = true /\ chars word_char s = true.
(** Text of a parameter: no punctuation that has a meaning around parameters, and no line break. *)
Definition param_char (c : ascii) : bool := negb (is "," c || is ")" c || is "(" c || is ";" c || is (ascii_of_nat 10) c)%bool.
Definition plain (s : string) : Prop := chars param_char s = true.

Section QasmSpec.
Variable P : Type.
Variable show : P -> string.
Notation aop := (aop P).
(** An operation of a gate class with as many parameters and qubits as it needs, or with no qubits; or of a class made from
    a circuit, whose name is a word and not a keyword. *)
Definition shaped (op : aop) : Prop :=
  match a_class P op with
  | Class n => exists q np nq, In (n, (q, (np, nq))) qasm_names /\ List.length (a_params P op) = np /\
      (forall qs, a_qubits P op = Some qs -> qs <> [] -> List.length qs = nq)
  | Custom n => word n /\ ~ In (lower n) ["gate"; "qreg"; "creg"]
  end.
Definition the_qubits (op : aop) : list nat := match a_qubits P op with Some qs => qs | None => [] end.
(** The statement has the gate's name, the parameters, and operands that name the operation's qubits in the circuit;
    operations made from circuits have no parameters there. *)
Definition states (rs : list (string * nat)) (qubits : list nat) (op : aop) (s : stmt) : Prop :=
  match a_class P op with
  | Class n => exists k, In (n, (s_name s, k)) qasm_names
  | Custom n => s_name s = lower n
  end /\
  s_params s = match a_class P op with Class _ => map show (a_params P op) | Custom _ => [] end /\
  Forall2 (fun q o => exists k, resolve rs o = Some k /\ nth_error qubits k = Some q) (the_qubits op) (s_operands s).
(** The definitions that are offered for gates. *)
Definition definition_of (op : aop) : list string :=
  match a_class P op with
  | Class n =>
      match dget String.eqb n
        [("Rotation", "gate rot(beta, gamma, delta) { rz(beta) q[0]; ry(gamma) q[0]; rz(delta) q[0]; }");
         ("CRotation", "// gate definition not implemented");
         ("SWAP", "gate swap a, b { cx b, a; cx a, b; cx b, a; }");
         ("CSWAP", "gate cswap c, a, b { cx b, a; ccx c, a, b; cx b, a; }")] with
      | Some d => [d]
      | None => []
      end
  | Custom _ => []
  end.
(** Each qubit of each operation beside the operand written for it. *)
Definition named (ops : list aop) (ss : list stmt) : list (nat * (string * nat)) :=
  List.concat (map (fun x => combine (the_qubits (fst x)) (s_operands (snd x))) (combine ops ss)).
(** The circuit without its conditions. *)
Definition unconditional (L : Type) (c : acircuit P L) : acircuit P L :=
  mkAC P L (a_qregs P L c) (a_cregs P L c) (map (fun op => mkA P (a_class P op) (a_params P op) (a_qubits P op) (a_nq P op) None) (a_ops P L c)).
(** Labels, if used, are true values whose texts are words, all different. *)
Definition labelled (L : Type) (truthy : L -> bool) (lstr : L -> string) (labels : bool) (c : acircuit P L) : Prop := labels = true ->
  Forall (fun x => truthy (fst x) = true /\ word (lstr (fst x))) (a_qregs P L c ++ a_cregs P L c) /\ NoDup (map (fun x => lstr (fst x)) (a_qregs P L c ++ a_cregs P L c)).
End QasmSpec.

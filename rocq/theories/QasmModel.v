(** Model of writing a circuit as OpenQASM 2.0.
    dwave/gate/circuit.py:585-641, registers/registers.py:122-136, 153-167, operations/base.py:107-124, 220-238,
    323-333 and the [to_qasm] methods of operations/operations.py. *)
From Coq Require Import List String Bool Arith Ascii Decimal DecimalString.
From Verif Require Import Py.
Import ListNotations.
Local Open Scope string_scope.
Local Open Scope list_scope.

(** Python's [str] of a natural number. *)
Definition str (n : nat) : string := NilZero.string_of_uint (Nat.to_uint n).
Definition newline : ascii := ascii_of_nat 10.
Definition nl : string := String newline "".
(** [sep.join(l)] *)
Fixpoint join (sep : string) (l : list string) : string :=
  match l with [] => "" | [x] => x | x :: l' => (x ++ sep ++ join sep l')%string end.
(** [s.strip()] for ASCII text: white space is 9-13, 28-31 and 32. *)
Definition is_space (c : ascii) : bool :=
  let n := nat_of_ascii c in ((Nat.leb 9 n && Nat.leb n 13) || (Nat.leb 28 n && Nat.leb n 32))%bool.
Fixpoint lstrip (s : string) : string :=
  match s with "" => "" | String c s' => if is_space c then lstrip s' else s end.
Fixpoint rstrip (s : string) : string :=
  match s with
  | "" => ""
  | String c s' => match rstrip s' with
                   | "" => if is_space c then "" else String c ""
                   | r => String c r
                   end
  end.
Definition strip (s : string) : string := rstrip (lstrip s).
(** [s.lower()] for ASCII text *)
Definition lower_char (c : ascii) : ascii :=
  let n := nat_of_ascii c in if (Nat.leb 65 n && Nat.leb n 90)%bool then ascii_of_nat (n + 32) else c.
Fixpoint lower (s : string) : string := match s with "" => "" | String c s' => String (lower_char c) (lower s') end.

(** The gate classes of operations/operations.py that have a [to_qasm] method: how many parameters it writes, how
    many qubits, the name, and the class attribute [_qasm_decl]: 88-100, 119-131, 150-162, 182-194, 213-225,
    244-256, 279-291, 318-331, 357-370, 396-409, 435-459, 495-507, 526-538, 553-565, 580-592, 609-623,
    640-654, 671-685, 702-718, 730-751, 778-799, 835-847. *)
Record qgate := mkG { g_name : string; g_np : nat; g_nq : nat; g_decl : option string }.
Definition qgates : list (string * qgate) :=
  [("Identity", mkG "id" 0 1 None); ("X", mkG "x" 0 1 None); ("Y", mkG "y" 0 1 None); ("Z", mkG "z" 0 1 None);
   ("Hadamard", mkG "h" 0 1 None); ("S", mkG "s" 0 1 None); ("T", mkG "t" 0 1 None);
   ("RX", mkG "rx" 1 1 None); ("RY", mkG "ry" 1 1 None); ("RZ", mkG "rz" 1 1 None);
   ("Rotation", mkG "rot" 3 1 (Some "gate rot(beta, gamma, delta) { rz(beta) q[0]; ry(gamma) q[0]; rz(delta) q[0]; }"));
   ("CX", mkG "cx" 0 2 None); ("CY", mkG "cy" 0 2 None); ("CZ", mkG "cz" 0 2 None); ("CHadamard", mkG "ch" 0 2 None);
   ("CRX", mkG "crx" 1 2 None); ("CRY", mkG "cry" 1 2 None); ("CRZ", mkG "crz" 1 2 None);
   ("CRotation", mkG "crot" 3 2 (Some "// gate definition not implemented"));
   ("SWAP", mkG "swap" 0 2 (Some "gate swap a, b { cx b, a; cx a, b; cx b, a; }"));
   ("CSWAP", mkG "cswap" 0 3 (Some "gate cswap c, a, b { cx b, a; ccx c, a, b; cx b, a; }"));
   ("CCX", mkG "ccx" 0 3 None)].

Section Qasm.
(** Parameters and their text; labels of registers, their truth value and their text. *)
Variable P : Type.
Variable show : P -> string.
Variable L : Type.
Variable truthy : L -> bool.
Variable lstr : L -> string.

(** An operation: a class by name, or a class made by [create_operation] with the name given to it or, without one,
    its class name; its parameters, its qubits, the number of qubits it reports, the bits it is conditioned on. *)
Inductive aclass := Class (n : string) | Custom (n : string).
Record aop := mkA { a_class : aclass; a_params : list P; a_qubits : option (list nat); a_nq : option nat; a_cond : option (list nat) }.
(** Quantum and classical registers in order with their labels; qubits and bits are numbered objects. *)
Record acircuit := mkAC { a_qregs : list (L * list nat); a_cregs : list (L * list nat); a_ops : list aop }.
(** circuit.py:225-232 *)
Definition aqubits (c : acircuit) : list nat := List.concat (map snd (a_qregs c)).

(** registers.py:122-136, 153-167; [k] is q or c *)
Definition reg_decl (kw k : string) (label : option L) (idx : option nat) (size : nat) : string :=
  let numbered := (kw ++ " " ++ k ++ match idx with Some i => str i | None => "" end ++ "[" ++ str size ++ "]")%string in
  match label with
  | Some l => if truthy l then (kw ++ " " ++ lstr l ++ "[" ++ str size ++ "]")%string else numbered
  | None => numbered
  end.
(** circuit.py:610-626 *)
Fixpoint decls_at (kw k : string) (labels : bool) (i : nat) (rs : list (L * list nat)) : string :=
  match rs with
  | [] => ""
  | (l, r) :: rs' =>
      (reg_decl kw k (if labels then Some l else None) (Some i) (List.length r) ++ ";" ++ nl ++ decls_at kw k labels (S i) rs')%string
  end.
Definition decls (kw k : string) (labels : bool) (rs : list (L * list nat)) : string :=
  match rs with
  | [(l, r)] => (reg_decl kw k (if labels then Some l else None) None (List.length r) ++ ";" ++ nl)%string
  | _ => decls_at kw k labels 0 rs
  end.

(** circuit.py:505-527: both the label and the number of the register *)
Fixpoint index_of (q : nat) (l : list nat) : option nat :=
  match l with [] => None | x :: l' => if Nat.eqb q x then Some 0 else option_map S (index_of q l') end.
Fixpoint find_reg (q i : nat) (rs : list (L * list nat)) : res (nat * L * nat) :=
  match rs with
  | [] => Err ValueError
  | (l, r) :: rs' => match index_of q r with Some k => Ok (i, l, k) | None => find_reg q (S i) rs' end
  end.
(** circuit.py:631-636; a qubit's entry does not depend on which occurrence of it is looked up *)
Definition entry (labels : bool) (c : acircuit) (q : nat) : res (nat * (string * nat)) :=
  let? x := find_reg q 0 (a_qregs c) in
  let '(i, l, k) := x in
  let name := if labels then lstr l
              else match a_qregs c with [_] => "q" | _ => ("q" ++ str i)%string end in
  Ok (q, (name, k)).
Definition mapping_of (labels : bool) (c : acircuit) : res (list (nat * (string * nat))) := mapM (entry labels c) (aqubits c).

(** base.py:220-238; only called with qubits *)
Definition map_qubits (mapping : list (nat * (string * nat))) (op : aop) (qs : list nat) : res (list string) :=
  match mapping with
  | [] => match a_nq op with
          | Some n => Ok (map (fun i => ("q[" ++ str i ++ "]")%string) (seq 0 n))
          | None => Err TypeError
          end
  | _ => mapM (fun q => match dget Nat.eqb q mapping with
                        | Some (l, i) => Ok (l ++ "[" ++ str i ++ "]")%string
                        | None => Err KeyError
                        end) qs
  end.
(** The operands, if the operation has qubits. *)
Definition operands (mapping : list (nat * (string * nat))) (op : aop) : res (option (list string)) :=
  match a_qubits op with
  | None | Some [] => Ok None
  | Some qs => let? l := map_qubits mapping op qs in Ok (Some l)
  end.
(** The parameters that are written: [parameters[0]], or three unpacked. *)
Definition written (np : nat) (ps : list P) : res (list P) :=
  match np with
  | 0 => Ok []
  | 1 => match ps with p :: _ => Ok [p] | [] => Err IndexError end
  | _ => if Nat.eqb (List.length ps) np then Ok ps else Err ValueError
  end.
Definition op_qasm (mapping : list (nat * (string * nat))) (op : aop) : res string :=
  match a_class op with
  | Custom n =>
      let? o := operands mapping op in
      Ok (match o with Some l => (lower n ++ " " ++ join ", " l)%string | None => lower n end)
  | Class n =>
      match dget String.eqb n qgates with
      | None => Err NotImplementedError
      | Some g =>
          let? ps := written (g_np g) (a_params op) in
          let head := match ps with [] => g_name g | _ => (g_name g ++ "(" ++ join ", " (map show ps) ++ ")")%string end in
          let? o := operands mapping op in
          match o with
          | Some l => if Nat.ltb (List.length l) (g_nq g) then Err IndexError
                      else Ok (head ++ " " ++ join ", " (firstn (g_nq g) l))%string
          | None => Ok head
          end
      end
  end.
Definition decl_of (op : aop) : option string :=
  match a_class op with
  | Class n => match dget String.eqb n qgates with Some g => g_decl g | None => None end
  | Custom _ => None
  end.
(** circuit.py:638-641; the texts of the declarations and of the statements *)
Fixpoint write_ops (defs : bool) (mapping : list (nat * (string * nat))) (ops : list aop) : res (string * string) :=
  match ops with
  | [] => Ok ("", "")
  | op :: ops' =>
      let? s := op_qasm mapping op in
      let? r := write_ops defs mapping ops' in
      let d := match decl_of op with Some d => if defs then (nl ++ d ++ nl)%string else "" | None => "" end in
      Ok ((d ++ fst r)%string, (s ++ ";" ++ nl ++ snd r)%string)
  end.
(** [""""] is one quotation mark. *)
Definition header : string := ("OPENQASM 2.0;" ++ nl ++ "include ""qelib1.inc"";" ++ nl)%string.
Definition to_qasm (version : string) (labels defs : bool) (c : acircuit) : res string :=
  if String.eqb version "2.0"
  then
    let regs := (decls "qreg" "q" labels (a_qregs c) ++ decls "creg" "c" labels (a_cregs c) ++ nl)%string in
    let? mapping := mapping_of labels c in
    let? r := write_ops defs mapping (a_ops c) in
    Ok (strip (header ++ fst r) ++ nl ++ nl ++ strip (regs ++ snd r))%string
  else Err NotImplementedError.
End Qasm.

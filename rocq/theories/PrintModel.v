(** Model of the printed forms of objects: [__repr__] and [__str__] of primitives, registers, operations and
    circuits. *)
From Coq Require Import List Ascii String Bool Arith.
From Verif Require Import PrimModel QasmModel.
Import ListNotations.
Local Open Scope string_scope.

(** ** [repr] of a string (Python's own), which f-strings apply to labels at primitives.py:65, 115-116.
    Characters are the first 256 code points.  Labels that are not strings are not modelled. *)
Definition hex (n : nat) : ascii := nth n (list_ascii_of_string "0123456789abcdef") "0"%char.
(** Below 256 the characters that are not printable are the control characters, the space at 160 and
    the hyphen at 173. *)
Definition printable (c : ascii) : bool :=
  let n := nat_of_ascii c in
  Nat.leb 32 n && negb (Nat.leb 127 n && Nat.leb n 160) && negb (Nat.eqb n 173).
Definition backslash : ascii := "\"%char.
Definition apostrophe : ascii := "'"%char.
Definition quotation : ascii := ascii_of_nat 34.
Definition esc_char (q c : ascii) : string :=
  if Ascii.eqb c q || Ascii.eqb c backslash then String backslash (String c "")
  else if Nat.eqb (nat_of_ascii c) 9 then "\t"
  else if Nat.eqb (nat_of_ascii c) 10 then "\n"
  else if Nat.eqb (nat_of_ascii c) 13 then "\r"
  else if printable c then String c ""
  else "\x" ++ String (hex (Nat.div (nat_of_ascii c) 16)) (String (hex (Nat.modulo (nat_of_ascii c) 16)) "").
Fixpoint esc (q : ascii) (s : string) : string :=
  match s with "" => "" | String c s' => esc_char q c ++ esc q s' end.
Fixpoint has_char (c : ascii) (s : string) : bool :=
  match s with "" => false | String d s' => Ascii.eqb d c || has_char c s' end.
(** Apostrophes around the string, unless it has apostrophes and no quotation marks. *)
Definition quote_of (s : string) : ascii :=
  if has_char apostrophe s && negb (has_char quotation s) then quotation else apostrophe.
Definition repr_str (s : string) : string :=
  String (quote_of s) (esc (quote_of s) s ++ String (quote_of s) "").

Section Print.
(** Plain numbers with their truth value and their [str]; in a list [repr] is used, which for [int],
    [float] and [complex] is the same. *)
Variable N : Type.
Variable ntrue : N -> bool.
Variable nstr : N -> string.

(** Qubit: primitives.py:63-65.  Bit: 112-116, with the value an [int] (134).  Variable: 182-186. *)
Definition repr_prim (p : prim N) : string :=
  match p with
  | PQubit _ l i => "<qubit: " ++ repr_str l ++ ", id: " ++ i ++ ">"
  | PBit _ l i (Some b) => "<bit: " ++ repr_str l ++ ", id: " ++ i ++ ", value: " ++ (if b then "1" else "0") ++ ">"
  | PBit _ l i None => "<bit: " ++ repr_str l ++ ", id: " ++ i ++ ">"
  | PVariable _ n (Some x) => if ntrue x then nstr x else "{" ++ n ++ "}"
  | PVariable _ n None => "{" ++ n ++ "}"
  end.

(** [repr] of lists and tuples (Python's own). *)
Definition repr_list (l : list string) : string := "[" ++ String.concat ", " l ++ "]".
Definition repr_tuple (l : list string) : string :=
  match l with [x] => "(" ++ x ++ ",)" | _ => "(" ++ String.concat ", " l ++ ")" end.
Definition repr_opt (l : option (list string)) : string :=
  match l with Some l => repr_tuple l | None => "None" end.

(** registers.py:74-76, 78-80 *)
Definition str_register (cls : string) (data : list (prim N)) : string :=
  cls ++ "(" ++ repr_list (map repr_prim data) ++ ")".
Definition repr_register (cls : string) (data : list (prim N)) : string :=
  "<" ++ cls ++ ", data=" ++ repr_list (map repr_prim data) ++ ">".

(** What of an operation is printed: the names of its class and of the class's first base, its parameters
    (for the classes that have the attribute), its qubits and its condition (base.py:193-197).  The
    condition is taken to be a tuple; [conditional] (343-349) stores what it is given. *)
Inductive param := Number (x : N) | Var (v : prim N).
Record shown := mkShown {
  base : string;
  cls : string;
  params : option (list param);
  qubits : option (list (prim N));
  cond : option (list (prim N))
}.
Definition repr_param (p : param) : string := match p with Number x => nstr x | Var v => repr_prim v end.
(** [name], base.py:268-274 *)
Definition name_of (o : shown) : string :=
  match params o with
  | Some ps => cls o ++ "(" ++ repr_list (map repr_param ps) ++ ")"
  | None => cls o
  end.
(** base.py:262-266; [__str__] at 258-260 is the same. *)
Definition repr_op (o : shown) : string :=
  match cond o with
  | Some (b :: bs) =>
      "<" ++ base o ++ ": " ++ name_of o ++ ", qubits=" ++ repr_opt (option_map (map repr_prim) (qubits o))
      ++ ", conditional: " ++ repr_tuple (map repr_prim (b :: bs)) ++ ">"
  | _ => "<" ++ base o ++ ": " ++ name_of o ++ ", qubits=" ++ repr_opt (option_map (map repr_prim) (qubits o)) ++ ">"
  end.
(** Measurement: base.py:672-673, 690 *)
Definition repr_measurement (qs bs : option (list (prim N))) (cond : option (list (prim N))) : string :=
  "<Measurement, qubits=" ++ repr_opt (option_map (map repr_prim) qs)
  ++ ", measured=" ++ repr_opt (option_map (map repr_prim) bs) ++ ">".
(** circuit.py:468-471 *)
Definition repr_circuit (cls : string) (qb cb ops : nat) : string :=
  "<" ++ cls ++ ": qubits=" ++ str qb ++ ", bits=" ++ str cb ++ ", ops=" ++ str ops ++ ">".
End Print.

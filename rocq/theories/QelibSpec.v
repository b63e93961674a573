(** What an OpenQASM 2.0 program does to a state: the language's two built-in gates, gate definitions, and the definitions of
    the file qelib1.inc that every written program includes.  From the language's definition (Cross, Bishop, Smolin,
    Gambetta, "Open Quantum Assembly Language", arXiv:1707.03429), not from the code. *)
From Coq Require Import List String Bool Arith ZArith NArith Ascii Reals.
From Verif Require Import CRing Cplx KernelSpec GateModel QasmSpec.
Import ListNotations.
Local Open Scope string_scope.
Local Open Scope list_scope.

(** ** The built-in gates *)
(** [U(theta, phi, lambda)] is [Rz(phi) Ry(theta) Rz(lambda)]. *)
Definition umat (theta phi lambda : R) : N -> N -> C :=
  lit [[Cscale (cos (theta / 2)) (Cexp (- ((phi + lambda) / 2))); Cscale (- sin (theta / 2)) (Cexp (- ((phi - lambda) / 2)))];
       [Cscale (sin (theta / 2)) (Cexp ((phi - lambda) / 2)); Cscale (cos (theta / 2)) (Cexp ((phi + lambda) / 2))]]%R.
Definition notmat : N -> N -> C := fun i j => if (i =? j)%N then C0 else C1.
Inductive prim := PU (theta phi lambda : R) (q : N) | PCX (control target : N).
(** The action on a state of [n] qubits *)
Definition prim_act (le : bool) (n : N) (p : prim) (v : N -> C) : N -> C :=
  match p with
  | PU a b c q => @op_apply Ccring le n (umat a b c) [q] [] v
  | PCX c t => @op_apply Ccring le n notmat [t] [c] v
  end.
(** First step first *)
Definition run (le : bool) (n : N) (ps : list prim) (v : N -> C) : N -> C := fold_left (fun v p => prim_act le n p v) ps v.

(** ** Gate definitions *)
Inductive expr := EZero | EPi | EArg (i : nat) | ENeg (e : expr) | EDiv (e : expr) (k : Z).
Fixpoint eval (args : list R) (e : expr) : option R :=
  match e with
  | EZero => Some 0%R
  | EPi => Some PI
  | EArg i => nth_error args i
  | ENeg e => option_map Ropp (eval args e)
  | EDiv e k => option_map (fun x => x / IZR k)%R (eval args e)
  end.
(** A gate with its number of parameters and qubits; its body names gates, parameters, and qubits by place. *)
Arguments EDiv e k%Z_scope.
Record gdef := mkDef { d_name : string; d_np : nat; d_nq : nat; d_body : list (string * list expr * list nat) }.
(** What a gate with given parameters does to given qubits; later definitions come first in the list, and a body only uses
    what is defined before. *)
Fixpoint meaning (defs : list gdef) (name : string) (ps : list R) (qs : list N) : option (list prim) :=
  match defs with
  | [] => if String.eqb name "U" then match ps, qs with [a; b; c], [q] => Some [PU a b c q] | _, _ => None end
          else if String.eqb name "CX" then match ps, qs with [], [c; t] => Some [PCX c t] | _, _ => None end
          else None
  | d :: defs' =>
      if String.eqb name (d_name d) then
        if (Nat.eqb (List.length ps) (d_np d) && Nat.eqb (List.length qs) (d_nq d))%bool then
          option_map (@List.concat prim)
            (all (fun st => let '(n, es, ks) := st in
                    match all (eval ps) es, all (nth_error qs) ks with Some xs, Some rs => meaning defs' n xs rs | _, _ => None end)
                 (d_body d))
        else None
      else meaning defs' name ps qs
  end.

(** ** qelib1.inc, latest definition first *)
Definition g1 n es : string * list expr * list nat := (n, es, [0]).
(** The file of the article *)
Definition qelib1 : list gdef :=
  [ mkDef "crz" 1 2 [("rz", [EDiv (EArg 0) 2], [1]); ("cx", [], [0; 1]); ("rz", [ENeg (EDiv (EArg 0) 2)], [1]); ("cx", [], [0; 1])];
    mkDef "ccx" 0 3 [("h", [], [2]); ("cx", [], [1; 2]); ("tdg", [], [2]); ("cx", [], [0; 2]); ("t", [], [2]); ("cx", [], [1; 2]);
                     ("tdg", [], [2]); ("cx", [], [0; 2]); ("t", [], [1]); ("t", [], [2]); ("h", [], [2]); ("cx", [], [0; 1]);
                     ("t", [], [0]); ("tdg", [], [1]); ("cx", [], [0; 1])];
    mkDef "ch" 0 2 [("h", [], [1]); ("sdg", [], [1]); ("cx", [], [0; 1]); ("h", [], [1]); ("t", [], [1]); ("cx", [], [0; 1]);
                    ("t", [], [1]); ("h", [], [1]); ("s", [], [1]); ("x", [], [1]); ("s", [], [0])];
    mkDef "cy" 0 2 [("sdg", [], [1]); ("cx", [], [0; 1]); ("s", [], [1])];
    mkDef "cz" 0 2 [("h", [], [1]); ("cx", [], [0; 1]); ("h", [], [1])];
    mkDef "rz" 1 1 [g1 "u1" [EArg 0]];
    mkDef "ry" 1 1 [g1 "u3" [EArg 0; EZero; EZero]];
    mkDef "rx" 1 1 [g1 "u3" [EArg 0; ENeg (EDiv EPi 2); EDiv EPi 2]];
    mkDef "tdg" 0 1 [g1 "u1" [ENeg (EDiv EPi 4)]];
    mkDef "t" 0 1 [g1 "u1" [EDiv EPi 4]];
    mkDef "sdg" 0 1 [g1 "u1" [ENeg (EDiv EPi 2)]];
    mkDef "s" 0 1 [g1 "u1" [EDiv EPi 2]];
    mkDef "h" 0 1 [g1 "u2" [EZero; EPi]];
    mkDef "z" 0 1 [g1 "u1" [EPi]];
    mkDef "y" 0 1 [g1 "u3" [EPi; EDiv EPi 2; EDiv EPi 2]];
    mkDef "x" 0 1 [g1 "u3" [EPi; EZero; EPi]];
    mkDef "id" 0 1 [g1 "U" [EZero; EZero; EZero]];
    mkDef "cx" 0 2 [("CX", [], [0; 1])];
    mkDef "u1" 1 1 [g1 "U" [EZero; EZero; EArg 0]];
    mkDef "u2" 2 1 [g1 "U" [EDiv EPi 2; EArg 0; EArg 1]];
    mkDef "u3" 3 1 [g1 "U" [EArg 0; EArg 1; EArg 2]] ].
(** Gates that later versions of the file add *)
Definition crx_def := mkDef "crx" 1 2 [("u1", [EDiv EPi 2], [1]); ("cx", [], [0; 1]); ("u3", [ENeg (EDiv (EArg 0) 2); EZero; EZero], [1]);
                                       ("cx", [], [0; 1]); ("u3", [EDiv (EArg 0) 2; ENeg (EDiv EPi 2); EZero], [1])].
Definition cry_def := mkDef "cry" 1 2 [("ry", [EDiv (EArg 0) 2], [1]); ("cx", [], [0; 1]); ("ry", [ENeg (EDiv (EArg 0) 2)], [1]); ("cx", [], [0; 1])].
Definition swap_def := mkDef "swap" 0 2 [("cx", [], [0; 1]); ("cx", [], [1; 0]); ("cx", [], [0; 1])].
Definition cswap_def := mkDef "cswap" 0 3 [("cx", [], [2; 1]); ("ccx", [], [0; 1; 2]); ("cx", [], [2; 1])].
Definition qelib1_later : list gdef := cry_def :: crx_def :: cswap_def :: swap_def :: qelib1.
(** The definition of [rot] that the library's text describes *)
Definition rot_def := mkDef "rot" 3 1 [g1 "rz" [EArg 0]; g1 "ry" [EArg 1]; g1 "rz" [EArg 2]].

(** The definitions of [swap] and [cswap] that the writer offers *)
Definition swap_decl := mkDef "swap" 0 2 [("cx", [], [1; 0]); ("cx", [], [0; 1]); ("cx", [], [1; 0])].
Definition cswap_decl := mkDef "cswap" 0 3 [("cx", [], [2; 1]); ("ccx", [], [0; 1; 2]); ("cx", [], [2; 1])].
Definition known : list gdef := [crx_def; cry_def; swap_def; cswap_def; rot_def; swap_decl; cswap_decl].
(** The file of the article with some of these gates, each once *)
Definition file (D : list gdef) : Prop := exists e, D = e ++ qelib1 /\ incl e known /\ NoDup (map d_name e).

(** ** Reading gate definitions: [gate name(parameters) qubits { statements }], as far as the writer uses it *)
Fixpoint trim (s : string) : string := match s with String " " s' => trim s' | _ => s end.
Fixpoint trim_end (s : string) : string :=
  match s with
  | "" => ""
  | String c s' => match trim_end s' with "" => if is " " c then "" else String c "" | r => String c r end
  end.
Fixpoint place (x : string) (l : list string) : option nat :=
  match l with [] => None | y :: l' => if String.eqb x y then Some 0 else option_map S (place x l') end.
Definition identifier (s : string) : bool :=
  match s with String c _ => (Nat.leb 97 (nat_of_ascii c) && Nat.leb (nat_of_ascii c) 122 && chars word_char s)%bool | "" => false end.
(** [name rest] or [name(list) rest] *)
Definition head (s : string) : option (string * list string * string) :=
  match cut (fun c => is "(" c || is " " c)%bool s with
  | (n, String c t) =>
      if is "(" c then match cut (is ")") t with (ps, String _ r) => Some (n, commas ps, trim_end (trim r)) | _ => None end
      else Some (n, [], trim_end (trim t))
  | (n, "") => Some (n, [], "")
  end.
Fixpoint pieces (fuel : nat) (s : string) : list string :=
  match fuel with
  | 0 => []
  | S k => match cut (is ";") s with (a, String _ t) => a :: pieces k t | (a, "") => [a] end
  end.
Definition body_statement (ps qs : list string) (s : string) : option (string * list expr * list nat) :=
  match head (trim s) with
  | Some (n, es, r) => match all (fun e => option_map EArg (place e ps)) es, all (fun q => place q qs) (commas r) with
                       | Some xs, Some ks => Some (n, xs, ks)
                       | _, _ => None
                       end
  | None => None
  end.
Definition gate_definition (s : string) : option gdef :=
  match cut (is "{") s with
  | (h, String _ b) =>
      match head (trim_end h), cut (is "}") b with
      | Some (n, ps, r), (body, String _ "") =>
          let qs := commas r in
          if (identifier n && forallb identifier ps && forallb identifier qs)%bool then
            option_map (mkDef n (List.length ps) (List.length qs))
              (all (body_statement ps qs) (filter (fun s => full (trim s)) (pieces (S (String.length body)) body)))
          else None
      | _, _ => None
      end
  | _ => None
  end.
(** A line that is no statement: a comment, or a definition of a name that has none yet. *)
Definition read_def (defs : list gdef) (s : string) : option (list gdef) :=
  if String.prefix "//" s then Some defs
  else if String.prefix "gate " s then
    match gate_definition (String.substring 5 (String.length s - 5) s) with
    | Some d => if existsb (fun e => String.eqb (d_name e) (d_name d)) defs then None else Some (d :: defs)
    | None => None
    end
  else None.

(** ** Programs *)
Fixpoint distinct (l : list nat) : bool := match l with [] => true | x :: l' => (negb (existsb (Nat.eqb x) l') && distinct l')%bool end.
Section Program.
(** The number that a text denotes *)
Variable value : string -> option R.
(** One statement on the registers declared so far; its qubits must differ. *)
Definition statement_does (defs : list gdef) (rs : list (string * nat)) (s : stmt) : option (list prim) :=
  match all value (s_params s), all (resolve rs) (s_operands s) with
  | Some ps, Some ks => if distinct ks then meaning defs (s_name s) ps (map N.of_nat ks) else None
  | _, _ => None
  end.
Fixpoint does (defs : list gdef) (rs : list (string * nat)) (ls : list line) : option (list prim) :=
  match ls with
  | [] => Some []
  | LQreg r :: ls' => does defs (rs ++ [r]) ls'
  | LCreg _ :: ls' => does defs rs ls'
  | LDef s :: ls' => match read_def defs s with Some defs' => does defs' rs ls' | None => None end
  | LStmt s :: ls' => match statement_does defs rs s, does defs rs ls' with Some a, Some b => Some (a ++ b) | _, _ => None end
  end.
(** What the text of a program does, given an included file *)
Definition program (file : list gdef) (s : string) : option (list prim) :=
  match read s with Some ls => does file [] ls | None => None end.
End Program.

(** Equal up to a factor of modulus 1 that is the same for all states *)
Definition up_to_phase (n : N) (f g : (N -> C) -> N -> C) : Prop :=
  exists z, Cnorm2 z = 1%R /\ forall v i, (i < 2 ^ n)%N -> f v i = Cmul z (g v i).

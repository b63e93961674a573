(** Model of dwave/gate/qir: the gate tables, instructions, the module that is compiled, and the loader.
    PyQIR itself is not part of the repository; what is assumed of it is marked "PyQIR:". *)
From Coq Require Import List String Bool Arith Ascii.
From Verif Require Import Py.
Import ListNotations.
Local Open Scope string_scope.
Local Open Scope list_scope.

(** qir/instructions.py:33-54 *)
Inductive itype := BASE | EXTERNAL | DECOMPOSE | INVALID | SKIP | MEASUREMENT | OUTPUT.
Definition itype_eqb (a b : itype) : bool :=
  match a, b with
  | BASE, BASE | EXTERNAL, EXTERNAL | DECOMPOSE, DECOMPOSE | INVALID, INVALID | SKIP, SKIP
  | MEASUREMENT, MEASUREMENT | OUTPUT, OUTPUT => true
  | _, _ => false
  end.

(** qir/instructions.py:63-87 *)
Definition table := list (string * (itype * string)).
Definition to_qir : table :=
  [("Identity", (SKIP, "id")); ("X", (BASE, "x")); ("Y", (BASE, "y")); ("Z", (BASE, "z"));
   ("Hadamard", (BASE, "h")); ("S", (BASE, "s")); ("T", (BASE, "t"));
   ("RX", (BASE, "rx")); ("RY", (BASE, "ry")); ("RZ", (BASE, "rz")); ("Rotation", (EXTERNAL, "rot"));
   ("CX", (BASE, "cx")); ("CY", (EXTERNAL, "cy")); ("CZ", (BASE, "cz")); ("SWAP", (EXTERNAL, "swap"));
   ("CHadamard", (EXTERNAL, "ch")); ("CRX", (EXTERNAL, "crx")); ("CRY", (EXTERNAL, "cry")); ("CRZ", (EXTERNAL, "crz"));
   ("CRotation", (EXTERNAL, "crot")); ("CSWAP", (EXTERNAL, "cswap")); ("CCX", (EXTERNAL, "ccnot"));
   ("Measurement", (MEASUREMENT, "mz"))].

Definition qis_name (n : string) : string := ("__quantum__qis__" ++ n ++ "__body")%string.
(** A dictionary built by a comprehension: later entries replace earlier ones. *)
Definition dict_of {A} (l : list (string * A)) : list (string * A) :=
  fold_left (fun d x => dset String.eqb (fst x) (snd x) d) l [].
(** qir/instructions.py:89 *)
Definition from_qir_of (t : table) : list (string * string) :=
  dict_of (map (fun x => (snd (snd x), fst x)) t).
(** qir/instructions.py:91-102 *)
Definition from_qis_of (t : table) : list (string * string) :=
  dset String.eqb "__quantum__qis__cnot__body" "CX"
    (dict_of (map (fun x => (qis_name (snd (snd x)), fst x))
       (filter (fun x => match fst (snd x) with DECOMPOSE | INVALID => false | _ => true end) t))).
Definition from_qis : list (string * string) := from_qis_of to_qir.

(** Kinds of arguments: double, qubit pointer, result pointer. *)
Inductive kind := KD | KQ | KR.

(** PyQIR: what [pyqir.qis.<name>] calls, and with which kinds of arguments. *)
Definition qis_function (n : string) : option (string * list kind) :=
  dget String.eqb n
    [("x", (qis_name "x", [KQ])); ("y", (qis_name "y", [KQ])); ("z", (qis_name "z", [KQ]));
     ("h", (qis_name "h", [KQ])); ("s", (qis_name "s", [KQ])); ("t", (qis_name "t", [KQ]));
     ("rx", (qis_name "rx", [KD; KQ])); ("ry", (qis_name "ry", [KD; KQ])); ("rz", (qis_name "rz", [KD; KQ]));
     ("cx", (qis_name "cnot", [KQ; KQ])); ("cz", (qis_name "cz", [KQ; KQ]));
     ("mz", (qis_name "mz", [KQ; KR]))].

Section Qir.
(** Parameters as operations hold them, which of them are ints or floats, doubles, and the conversion. *)
Variable P : Type.
Variable pnum : P -> bool.
Variable D : Type.
Variable dbl : P -> D.

(** ** Circuits as the compiler reads them *)
(** The class name, the parameters if the operation has the attribute, the numbers of qubits and
    parameters it reports, and its qubits and bits; qubits and bits are numbered objects.
    Conditions are not read by the compiler. *)
Record qop := mkOp { o_name : string; o_params : option (list P); o_nq : nat; o_np : nat;
                     o_qubits : option (list nat); o_bits : option (list nat) }.
(** The registers' contents in order, and the operations. *)
Record qcircuit := mkC { c_qregs : list (list nat); c_cregs : list (list nat); c_ops : list qop }.
(** circuit.py:225-241: registers in order; a qubit is in one register only. *)
Definition c_qubits (c : qcircuit) : list nat := List.concat (c_qregs c).
Definition c_bits (c : qcircuit) : list nat := List.concat (c_cregs c).

Fixpoint posn (q : nat) (l : list nat) : option nat :=
  match l with [] => None | x :: l' => if Nat.eqb q x then Some 0 else option_map S (posn q l') end.
(** circuit.py:505-527, 561-583: the register and the place within it. *)
Fixpoint find_at (i q : nat) (rs : list (list nat)) : res (nat * nat) :=
  match rs with
  | [] => Err ValueError
  | r :: rs' => match posn q r with Some k => Ok (i, k) | None => find_at (S i) q rs' end
  end.
Definition find (q : nat) (rs : list (list nat)) : res (nat * nat) := find_at 0 q rs.

(** ** Instructions: qir/instructions.py:105-221 *)
Inductive arg := ANum (p : P) | AQubit (i : nat) | AResult (i : nat).
(** A declared function: its name in the module and the kinds of its parameters. *)
Record fn := mkFn { f_name : string; f_kinds : list kind }.
Record instr := mkI { i_type : itype; i_name : string; i_args : list arg; i_ext : option fn }.

Definition arg_ok (a : arg) : bool := match a with ANum p => pnum p | _ => true end.
(** 115-141 *)
Definition new_instr (t : itype) (n : string) (args : list arg) (ext : option fn) : res instr :=
  if forallb arg_ok args
  then match t, ext with
       | EXTERNAL, None => Err ValueError
       | _, _ => Ok (mkI t n args ext)
       end
  else Err TypeError.

(** What a compiled function is made of: calls.  [CallInit] and [CallOut] are the run-time functions. *)
Inductive carg := CDouble (d : D) | CQubit (i : nat) | CResult (i : nat).
Inductive call := Call (callee : string) (args : list carg).

(** PyQIR: a number becomes a double where a double is expected and is refused elsewhere; the number of
    arguments must be right. *)
Fixpoint convert (ks : list kind) (args : list arg) : res (list carg) :=
  match ks, args with
  | [], [] => Ok []
  | KD :: ks', ANum p :: args' => let? r := convert ks' args' in Ok (CDouble (dbl p) :: r)
  | KQ :: ks', AQubit i :: args' => let? r := convert ks' args' in Ok (CQubit i :: r)
  | KR :: ks', AResult i :: args' => let? r := convert ks' args' in Ok (CResult i :: r)
  | _, _ => Err TypeError
  end.
(** 158-185 *)
Definition execute (x : instr) : res call :=
  match i_type x with
  | BASE | MEASUREMENT =>
      match qis_function (i_name x) with
      | None => Err AttributeError
      | Some (callee, ks) => let? r := convert ks (i_args x) in Ok (Call callee r)
      end
  | EXTERNAL =>
      match i_ext x with
      | None => Err ValueError
      | Some f => let? r := convert (f_kinds f) (i_args x) in Ok (Call (f_name f) r)
      end
  | _ => Err TypeError
  end.

(** ** The module: qir/compiler.py:46-336 *)
(** [self._return]: None, an instruction, or an instruction that has been erased. *)
Inductive ret := RNone | RLive | RErased.
(** A function of the LLVM module with a body: its calls, and whether it was finished by a return. *)
Record main := mkMain { b_calls : list call; b_done : bool }.
Record qmodule := mkQ {
  q_nq : nat; q_nb : nat;
  q_body : list instr; q_meas : list instr; q_out : list instr;   (* self._instructions *)
  q_ext : list (string * fn);                                     (* self._external_functions *)
  q_decl : list string;                                           (* names of functions declared in the LLVM module *)
  q_mains : list main;                                            (* functions with a body in the LLVM module *)
  q_ret : ret; q_compiled : bool;
  q_qir : option (list main)                                      (* self._qir *)
}.
(** 65-132 *)
Definition new_module (nq nb : nat) : qmodule := mkQ nq nb [] [] [] [] [] [] RNone false None.

(** PyQIR: LLVM gives a function whose name is taken another name, with a dot and a number. *)
Fixpoint dec (fuel n : nat) : string :=
  let d := String (ascii_of_nat (48 + n mod 10)) "" in
  match fuel with
  | O => d
  | S f => if Nat.ltb n 10 then d else (dec f (n / 10) ++ d)%string
  end.
Definition unique (n : string) (used : list string) : string :=
  if existsb (String.eqb n) used then (n ++ "." ++ dec (List.length used) (List.length used))%string else n.

(** 264-280 *)
Definition add_external (n : string) (ks : list kind) (m : qmodule) : qmodule :=
  let u := unique (qis_name n) (q_decl m) in
  mkQ (q_nq m) (q_nb m) (q_body m) (q_meas m) (q_out m)
      (dset String.eqb n (mkFn u ks) (q_ext m)) (q_decl m ++ [u]) (q_mains m) (q_ret m) (q_compiled m) (q_qir m).
(** 211-225 *)
Definition external_instr (n : string) (args : list arg) (m : qmodule) : res instr :=
  new_instr EXTERNAL n args (dget String.eqb n (q_ext m)).
(** 255-262; the blocks are body, measurements and output *)
Inductive block := Body | Measurements | Output.
Definition add_instr (b : block) (x : instr) (m : qmodule) : qmodule :=
  mkQ (q_nq m) (q_nb m)
      (match b with Body => q_body m ++ [x] | _ => q_body m end)
      (match b with Measurements => q_meas m ++ [x] | _ => q_meas m end)
      (match b with Output => q_out m ++ [x] | _ => q_out m end)
      (q_ext m) (q_decl m) (q_mains m) (q_ret m) (q_compiled m) (q_qir m).

(** 330-336: from the end backwards, delete the external instructions; [k] more elements to look at. *)
Fixpoint del_at {A} (n : nat) (l : list A) : list A :=
  match l, n with [], _ => [] | _ :: t, O => t | y :: t, S n' => y :: del_at n' t end.
Fixpoint drop_external (k : nat) (l : list instr) : list instr :=
  match k with
  | O => l
  | S k' =>
      drop_external k'
        (match nth_error l k' with
         | Some x => if itype_eqb (i_type x) EXTERNAL then del_at k' l else l
         | None => l
         end)
  end.
Definition remove_external (m : qmodule) : qmodule :=
  mkQ (q_nq m) (q_nb m) (drop_external (List.length (q_body m)) (q_body m))
      (drop_external (List.length (q_meas m)) (q_meas m)) (drop_external (List.length (q_out m)) (q_out m))
      (q_ext m) (q_decl m) (q_mains m) (q_ret m) (q_compiled m) (q_qir m).

(** 299-328.  Erasing the return a second time is left undefined. *)
Fixpoint redeclare (xs : list (string * fn)) (decl : list string) : list (string * fn) * list string :=
  match xs with
  | [] => ([], decl)
  | (n, f) :: xs' =>
      let u := unique (f_name f) decl in
      let (ys, d) := redeclare xs' (decl ++ [u]) in ((n, mkFn u (f_kinds f)) :: ys, d)
  end.
Definition reset (rm : bool) (m : qmodule) : qmodule * res unit :=
  let m1 := remove_external (mkQ (q_nq m) (q_nb m) (q_body m) (q_meas m) (q_out m) (q_ext m) [] [] (q_ret m) (q_compiled m) (q_qir m)) in
  match q_ret m1 with
  | RNone => (m1, Err AttributeError)
  | RErased => (m1, Err Undefined)
  | RLive =>
      if rm
      then (mkQ (q_nq m1) (q_nb m1) [] [] [] [] [] [] RErased false None, Ok tt)
      else let (ext, decl) := redeclare (q_ext m1) [] in
           (mkQ (q_nq m1) (q_nb m1) (q_body m1) (q_meas m1) (q_out m1) ext decl [] RErased false None, Ok tt)
  end.

(** 162-184: the calls made until the first failure, and the failure. *)
Fixpoint emit (f : instr -> res call) (l : list instr) : list call * option exn :=
  match l with
  | [] => ([], None)
  | x :: l' => match f x with
               | Err e => ([], Some e)
               | Ok k => let (ks, e) := emit f l' in (k :: ks, e)
               end
  end.
Definition init_call : call := Call "__quantum__rt__initialize" [].
Definition record_call (x : instr) : res call :=
  match i_args x with
  | AResult i :: _ => Ok (Call "__quantum__rt__result_record_output" [CResult i])
  | [] => Err IndexError
  | _ => Err TypeError
  end.
Definition body_calls (m : qmodule) : list call * option exn :=
  let (a, ea) := emit execute (q_body m) in
  match ea with
  | Some e => (init_call :: a, Some e)
  | None =>
      let (b, eb) := emit execute (q_meas m) in
      match eb with
      | Some e => (init_call :: a ++ b, Some e)
      | None => let (o, eo) := emit record_call (q_out m) in (init_call :: a ++ b ++ o, eo)
      end
  end.
(** 134-160.  PyQIR: verification fails if a function of the module has no return. *)
Definition compile_now (strict : bool) (m : qmodule) : qmodule * res unit :=
  match body_calls m with
  | (cs, Some e) =>
      (mkQ (q_nq m) (q_nb m) (q_body m) (q_meas m) (q_out m) (q_ext m) (q_decl m)
           (q_mains m ++ [mkMain cs false]) (q_ret m) (q_compiled m) (q_qir m), Err e)
  | (cs, None) =>
      let mains := q_mains m ++ [mkMain cs true] in
      if (negb (forallb b_done mains) && strict)%bool
      then (mkQ (q_nq m) (q_nb m) (q_body m) (q_meas m) (q_out m) (q_ext m) (q_decl m) mains RLive (q_compiled m) (q_qir m), Err CompileError)
      else (mkQ (q_nq m) (q_nb m) (q_body m) (q_meas m) (q_out m) (q_ext m) (q_decl m) mains RLive true (Some mains), Ok tt)
  end.
Definition compile (force strict : bool) (m : qmodule) : qmodule * res unit :=
  if q_compiled m
  then if force
       then match reset false m with
            | (m', Ok _) => compile_now strict m'
            | (m', Err e) => (m', Err e)
            end
       else (m, Err CompileError)
  else compile_now strict m.

(** Calls on a module in any order; exceptions are caught. *)
Inductive qcall :=
| QAddInstr (b : block) (x : instr)
| QAddExternal (n : string) (ks : list kind)
| QCompile (force strict : bool)
| QReset (rm : bool).
Definition qstep (x : qcall) (m : qmodule) : qmodule * res unit :=
  match x with
  | QAddInstr b i => (add_instr b i m, Ok tt)
  | QAddExternal n ks => (add_external n ks m, Ok tt)
  | QCompile force strict => compile force strict m
  | QReset rm => reset rm m
  end.
Fixpoint qruns (xs : list qcall) (m : qmodule) : qmodule :=
  match xs with [] => m | x :: xs' => qruns xs' (fst (qstep x m)) end.

(** ** [qir_module]: qir/compiler.py:339-403 *)
Fixpoint qubit_args (c : qcircuit) (qs : list nat) : res (list arg) :=
  match qs with
  | [] => Ok []
  | q :: qs' => let? x := find q (c_qregs c) in
                let? r := qubit_args c qs' in Ok (AQubit (snd x) :: r)
  end.
Fixpoint measure_all (c : qcircuit) (n : string) (l : list (nat * nat)) (m : qmodule) : res qmodule :=
  match l with
  | [] => Ok m
  | (q, b) :: l' =>
      let? x := find q (c_qregs c) in
      let? y := find b (c_cregs c) in
      let? i := new_instr MEASUREMENT n [AQubit (snd x); AResult (snd y)] None in
      let? o := new_instr OUTPUT "out" [AResult (snd y)] None in
      measure_all c n l' (add_instr Output o (add_instr Measurements i m))
  end.
(** One turn of the loop; the boolean says that a measurement has been met. *)
Definition add_op (c : qcircuit) (ext : bool) (op : qop) (s : bool * qmodule) : res (bool * qmodule) :=
  let (met, m) := s in
  match dget String.eqb (o_name op) to_qir with
  | None => Err NotImplementedError
  | Some (t, n) =>
      let m := if (ext && itype_eqb t EXTERNAL)%bool
               then add_external n (repeat KQ (o_nq op) ++ repeat KD (o_np op)) m else m in
      match t with
      | MEASUREMENT =>
          match o_qubits op, o_bits op with
          | Some qs, Some bs => let? m' := measure_all c n (combine qs bs) m in Ok (true, m')
          | _, _ => Err TypeError
          end
      | BASE | EXTERNAL =>
          if (itype_eqb t EXTERNAL && negb ext)%bool then Err NotImplementedError
          else if met then Err ValueError
          else match o_qubits op with
               | None => Err TypeError
               | Some qs =>
                   let? qa := qubit_args c qs in
                   let args := map ANum (match o_params op with Some ps => ps | None => [] end) ++ qa in
                   let? i := (if itype_eqb t EXTERNAL then external_instr n args m else new_instr BASE n args None) in
                   Ok (false, add_instr Body i m)
               end
      | _ => Err NotImplementedError
      end
  end.
Fixpoint add_ops (c : qcircuit) (ext : bool) (ops : list qop) (s : bool * qmodule) : res (bool * qmodule) :=
  match ops with
  | [] => Ok s
  | op :: ops' => let? s' := add_op c ext op s in add_ops c ext ops' s'
  end.
Definition qir_module (c : qcircuit) (ext : bool) : res qmodule :=
  let? s := add_ops c ext (c_ops c) (false, new_module (List.length (c_qubits c)) (List.length (c_bits c))) in
  Ok (snd s).
(** circuit.py:643-662 *)
Definition to_qir_calls (c : qcircuit) (ext : bool) : res (list main) :=
  let? m := qir_module c ext in
  match compile false true m with
  | (m', Ok _) => match q_qir m' with Some t => Ok t | None => Err CompileError end
  | (_, Err e) => Err e
  end.

(** ** The loader: qir/loader.py:73-189 *)
(** A circuit that is being built: it has one quantum and one classical register, so qubits and bits are
    places in them. *)
Inductive lop := LGate (n : string) (params : list D) (qs : list nat) | LMeasure (qs bs : list nat).
Record lcircuit := mkL { l_nq : nat; l_nb : nat; l_ops : list lop }.

(** The shapes of the gate classes (operations/operations.py): constructor, number of qubits and of
    parameters. *)
Inductive shape := Plain (nq : nat) | Param (nq np : nat) | Controlled (nq : nat) | ParamControlled (nq np : nat).
Definition gates : list (string * shape) :=
  [("Identity", Plain 1); ("X", Plain 1); ("Y", Plain 1); ("Z", Plain 1); ("Hadamard", Plain 1); ("S", Plain 1); ("T", Plain 1);
   ("RX", Param 1 1); ("RY", Param 1 1); ("RZ", Param 1 1); ("Rotation", Param 1 3);
   ("CX", Controlled 2); ("CY", Controlled 2); ("CZ", Controlled 2); ("SWAP", Plain 2); ("CHadamard", Controlled 2);
   ("CRX", ParamControlled 2 1); ("CRY", ParamControlled 2 1); ("CRZ", ParamControlled 2 1); ("CRotation", ParamControlled 2 3);
   ("CSWAP", Plain 3); ("CCX", Plain 3)].
(** Whether a controlled class knows its number of qubits already; it learns it when the number is first
    asked for (operations/base.py:525-528). *)
Variable counted : string -> bool.

(** [ops.<name>( *params, qubits=[...])] within the context: operations/base.py:183-218, 364-370, 474-504,
    614-622.  The error, if any. *)
Definition construct (n : string) (np : nat) (nq : nat) : option exn :=
  match dget String.eqb n gates with
  | None => Some AttributeError
  | Some (Plain k) => if Nat.eqb np 0 then (if Nat.eqb nq k then None else Some ValueError) else Some TypeError
  | Some (Param k p) =>
      if Nat.eqb np 1 then (if Nat.eqb p 1 then (if Nat.eqb nq k then None else Some ValueError) else Some ValueError)
      else Some TypeError
  | Some (Controlled k) =>
      if Nat.leb np 2
      then if Nat.eqb nq 0 then Some TypeError
           else if (counted n && negb (Nat.eqb nq k))%bool then Some ValueError else None
      else Some TypeError
  | Some (ParamControlled k p) =>
      if (Nat.leb 1 np && Nat.leb np 3)%bool
      then if Nat.eqb p 1
           then if Nat.eqb nq 0 then Some TypeError
                else if (counted n && negb (Nat.eqb nq k))%bool then Some ValueError else None
           else Some ValueError
      else Some TypeError
  end.

(** 155-189 *)
Fixpoint deconstruct (args : list carg) : list D * list nat * list nat :=
  match args with
  | [] => ([], [], [])
  | a :: args' =>
      let '(ps, qs, bs) := deconstruct args' in
      match a with
      | CDouble d => (d :: ps, qs, bs)
      | CQubit i => (ps, i :: qs, bs)
      | CResult i => (ps, qs, i :: bs)
      end
  end.
Definition is_qis (s : string) : bool := match String.index 0 "__qis__" s with Some _ => true | None => false end.
Definition maxi (l : list nat) : nat := fold_right Nat.max 0 l.

(** 93-128: one call; the measured qubits and bits are collected. *)
Definition lstate : Type := (lcircuit * list nat * list nat)%type.
Definition load_call (k : call) (s : lstate) : res lstate :=
  let (callee, args) := k in
  let '(c, mq, mb) := s in
  if negb (is_qis callee) then Ok s
  else match dget String.eqb callee from_qis with
       | None => Err TypeError
       | Some n =>
           let '(ps, qs, bs) := deconstruct args in
           if String.eqb n "Measurement" then Ok (c, mq ++ qs, mb ++ bs)
           else
             let c1 := mkL (Nat.max (l_nq c) (S (maxi qs))) (l_nb c) (l_ops c) in
             match construct n (List.length ps) (List.length qs) with
             | Some e => Err e
             | None => Ok (mkL (l_nq c1) (l_nb c1) (l_ops c1 ++ [LGate n ps qs]), mq, mb)
             end
       end.
Fixpoint load_calls (ks : list call) (s : lstate) : res lstate :=
  match ks with [] => Ok s | k :: ks' => let? s' := load_call k s in load_calls ks' s' end.
Fixpoint load_mains (ms : list main) (s : lstate) : res lstate :=
  match ms with [] => Ok s | b :: ms' => let? s' := load_calls (b_calls b) s in load_mains ms' s' end.
(** 136-152 *)
Definition add_measurements (c : lcircuit) (qs bs : list nat) : res lcircuit :=
  let nb := Nat.max (l_nb c) (S (maxi bs)) in
  if forallb (fun q => Nat.ltb q (l_nq c)) qs
  then if Nat.ltb (List.length bs) (List.length qs) then Err ValueError
       else Ok (mkL (l_nq c) nb (l_ops c ++ [LMeasure qs (firstn (List.length qs) bs)]))
  else Err IndexError.
(** 73-133 into a new circuit *)
Definition load (ms : list main) : res lcircuit :=
  let? s := load_mains ms (mkL 0 0 [], [], []) in
  let '(c, mq, mb) := s in
  match mq with [] => Ok c | _ => add_measurements c mq mb end.
End Qir.

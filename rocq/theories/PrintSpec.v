(** Words for printed forms. *)
From Coq Require Import List Ascii String Bool.
From Verif Require Import PrimModel PrintModel.
Import ListNotations.
Local Open Scope string_scope.

Fixpoint chars_of (s : string) : list ascii := match s with "" => [] | String c s' => c :: chars_of s' end.
(** None of the characters [cs] occurs in [s]. *)
Definition without (cs : string) (s : string) : Prop := forall c, In c (chars_of cs) -> ~ In c (chars_of s).

(** Identifiers of the language, as names of classes, have none of the signs put around them. *)
Definition identifier (s : string) : Prop := without ":(, " s.

Section PrintSpec.
Variable N : Type.
(** A qubit or bit whose id has no comma and no closing bracket. *)
Definition plain_id (p : prim N) : Prop :=
  match p with PQubit _ _ i | PBit _ _ i _ => without ",>" i | PVariable _ _ _ => False end.
Definition all_plain (l : option (list (prim N))) : Prop := match l with Some l => Forall plain_id l | None => True end.
(** No condition and the empty condition count as one. *)
Definition conditions (l : option (list (prim N))) : list (prim N) := match l with Some l => l | None => [] end.
(** Every parameter is a number. *)
Definition numbers (l : option (list (param N))) : Prop :=
  match l with Some l => Forall (fun p => match p with Number _ _ => True | Var _ _ => False end) l | None => True end.
End PrintSpec.

(** The string that a string literal of the language stands for: between two equal quotes, where a backslash
    begins an escape. *)
Definition digit_of (c : ascii) : option nat :=
  let n := nat_of_ascii c in
  if Nat.leb 48 n && Nat.leb n 57 then Some (n - 48)
  else if Nat.leb 97 n && Nat.leb n 102 then Some (n - 87) else None.
Definition put (c : ascii) (s : option string) : option string := option_map (String c) s.
Fixpoint inside (q : ascii) (s : string) : option string :=
  match s with
  | "" => None
  | String c s1 =>
      if Ascii.eqb c q then match s1 with "" => Some "" | _ => None end
      else if Ascii.eqb c "\" then
        match s1 with
        | String "x" (String h (String l s2)) =>
            match digit_of h, digit_of l with
            | Some a, Some b => put (ascii_of_nat (16 * a + b)) (inside q s2)
            | _, _ => None
            end
        | String "n" s2 => put (ascii_of_nat 10) (inside q s2)
        | String "r" s2 => put (ascii_of_nat 13) (inside q s2)
        | String "t" s2 => put (ascii_of_nat 9) (inside q s2)
        | String d s2 =>
            if Ascii.eqb d "\" || Ascii.eqb d "'" || Ascii.eqb d (ascii_of_nat 34) then put d (inside q s2) else None
        | "" => None
        end
      else if Ascii.eqb c (ascii_of_nat 10) || Ascii.eqb c (ascii_of_nat 13) then None
      else put c (inside q s1)
  end.
Definition literal (s : string) : option string :=
  match s with
  | String c s' => if Ascii.eqb c "'" || Ascii.eqb c (ascii_of_nat 34) then inside c s' else None
  | "" => None
  end.

(** The text after the last space. *)
Fixpoint last_word (s : string) : string :=
  match s with
  | "" => ""
  | String c s' => if Ascii.eqb c " " then (if has_char " " s' then last_word s' else s') else if has_char " " s' then last_word s' else s
  end.
(** What of a qubit or bit comes last: the value of a bit that has one, else the id. *)
Definition told {N} (p : prim N) : string :=
  match p with
  | PBit _ _ _ (Some true) => "1"
  | PBit _ _ _ (Some false) => "0"
  | PQubit _ _ i | PBit _ _ i None => i
  | PVariable _ _ _ => ""
  end.

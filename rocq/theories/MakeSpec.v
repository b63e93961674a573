(** Specification for C73: what an operation holds that is constructed, called or made conditional, and which
    constructions are accepted. *)
From Coq Require Import List ZArith String Bool Arith.
From Verif Require Import Py RegisterModel WorldModel WorldSpec WorldSpec3 WorldSpec4.
Import ListNotations.
Local Open Scope nat_scope.

Definition controlled (k : kind) : Prop := k = KCtrl \/ k = KParCtrl.
Definition parametrised (k : kind) : Prop := k = KParam \/ k = KParCtrl.
Definition blank (o : option (list item)) : Prop := o = None \/ o = Some [].

(** The arguments of a controlled class, with [n] its number of controls, and the control, the target and the qubits
    that result.  Qubits are divided after the controls; a class without a number of controls takes them all for both. *)
Inductive parts (n : option nat) : qargs -> option (list item) -> option (list item) -> option (list item) -> Prop :=
| parts_divided m l c t : n = Some m -> l <> [] -> l = c ++ t -> List.length c = Nat.min m (List.length l) ->
    parts n (AQ (Some l)) (Some c) (Some t) (Some l)
| parts_undivided l : n = None -> l <> [] -> parts n (AQ (Some l)) (Some l) (Some l) (Some l)
| parts_nothing q : blank q -> parts n (AQ q) None None None
| parts_given c t : c <> [] -> t <> [] -> parts n (ACT (Some c) (Some t)) (Some c) (Some t) (Some (c ++ t))
| parts_control c t : c <> [] -> blank t -> parts n (ACT (Some c) t) (Some c) None None
| parts_target c t : blank c -> t <> [] -> parts n (ACT c (Some t)) None (Some t) None
| parts_neither c t : blank c -> blank t -> parts n (ACT c t) None None None.

Section MakeSpec.
Variable P : Type.
Variable ptrue : P -> bool.
Notation world := (world P).

(** An object that a constructor of class number [k] leaves, with parameters [gs] and arguments [a]. *)
Record made (w : world) (k : nat) (x : cls) (gs : list (param P)) (a : qargs) (y : opobj P) : Prop := {
  md_cls : o_cls y = k;
  md_parts : (controlled (k_kind x) /\ parts (k_ncontrol x) a (o_control y) (o_target y) (o_qubits y)) \/
             (~ controlled (k_kind x) /\ a = AQ (o_qubits y) /\ o_control y = None /\ o_target y = None);
  md_params : same_params P (stands_for P ptrue w) w (k_kind x) gs (o_params y);
  md_bits : o_bits y = None;
  md_cond : o_cond y = None
}.
(** One object is new; nothing else happened but that a recording circuit has got it. *)
Record one_new (w w' : world) (o : nat) (y : opobj P) : Prop := {
  on_number : o = List.length (w_op w);
  on_op : w_op w' = w_op w ++ [y];
  on_rest : only_adds P w w' [o];
  on_var : w_var w' = w_var w
}.

(** The number of qubits that a class wants, if it wants one.  A controlled class that says 0 wants the sum of its
    controls and targets, if it has both. *)
Definition has_sum (x : cls) (n : nat) : Prop :=
  controlled (k_kind x) /\ exists c t, k_ncontrol x = Some (S c) /\ k_ntarget x = Some (S t) /\ n = S c + S t.
Definition wants (x : cls) (n : nat) : Prop :=
  k_numq x = Some n /\ (n = 0 -> forall m, ~ has_sum x m) \/ k_numq x = Some 0 /\ has_sum x n.
(** A construction that is accepted. *)
Record accepted (w : world) (x : cls) (ps : option (list (param P))) (a : qargs) : Prop := {
  ac_params : match ps with Some l => parametrised (k_kind x) /\ k_nparams x = Some (List.length l) | None => ~ parametrised (k_kind x) end;
  ac_args : match a with ACT _ _ => controlled (k_kind x) | AQ _ => True end;
  ac_qubits : w_active w <> None -> given_qubits (k_kind x) a <> None;
  ac_count : forall l n, given_qubits (k_kind x) a = Some l -> wants x n -> List.length l = n;
  ac_circuit : forall c z, recording P w = Some c -> nth_error (w_circ w) c = Some z ->
    c_locked z = false /\ (forall l q, given_qubits (k_kind x) a = Some l -> In q l -> in_qreg z q) /\
    (~ takes_variables z -> forall l p, ps = Some l -> In p l -> exists q, stands_for P ptrue w p q)
}.

(** What is taken when an operation is called: what is given, else what the operation has. *)
Definition instead (given old r : option (list item)) : Prop :=
  (blank given /\ r = old) \/ (~ blank given /\ r = given).
Inductive again (x : cls) (y : opobj P) : qargs -> qargs -> Prop :=
| again_plain q r : ~ controlled (k_kind x) -> instead q (o_qubits y) r -> again x y (AQ q) (AQ r)
| again_controlled c t c' t' : controlled (k_kind x) -> instead c (o_control y) c' -> instead t (o_target y) t' -> again x y (ACT c t) (ACT c' t').
(** No arguments. *)
Definition no_args (k : kind) (a : qargs) : Prop :=
  match a with AQ q => ~ controlled k /\ blank q | ACT c t => controlled k /\ blank c /\ blank t end.
End MakeSpec.

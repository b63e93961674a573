(** Vocabulary for statements about circuits: what a register contains, what a circuit contains,
    and what every executed call of a program satisfies. *)
From Coq Require Import List ZArith String Bool Arith.
From Verif Require Import Py RegisterModel WorldModel.
Import ListNotations.
Local Open Scope nat_scope.

(** The items of a register, in order. *)
Definition contents (r : register) : list item :=
  match items (core r) with Ok l => l | Err _ => [] end.

(** The items of all registers of a dictionary, in creation order. *)
Definition all_items (rs : list (label * register)) : list item :=
  List.concat (map (fun p => contents (snd p)) rs).

Definition circuit_qubits (x : circ) : list item := all_items (s_regs (c_q x)).
Definition circuit_bits (x : circ) : list item := all_items (s_regs (c_b x)).

Definition is_qubit (v : item) : Prop := exists q, v = IQubit q.
Definition is_bit (v : item) : Prop := exists b, v = IBit b.

Section Spec.
Variable P : Type.
Variable ptrue : P -> bool.
Variable peqb : P -> P -> bool.

(** The value a bit holds. *)
Definition bit_value (w : world P) (b : nat) : option bool :=
  match nth_error (w_bit w) b with Some (_, v) => v | None => None end.

(** [ok] holds of every call a program executes, in the state in which it is executed. *)
Fixpoint executes (ok : world P -> call P -> Prop) (p : prog P) (w : world P) : Prop :=
  match p with
  | Skip | Raise _ => True
  | Do x => ok w x
  | Seq p q => executes ok p w /\
      match run ptrue peqb p w with (w', Ok _) => executes ok q w' | _ => True end
  | With c body =>
      match (let! a := context c in ctx_enter a) w with
      | (w', Ok _) => executes ok body w'
      | _ => True
      end
  | Frozen body =>
      match set_frozen true CircuitError w with
      | (w', Ok _) => executes ok body w'
      | _ => True
      end
  | Try body => executes ok body w
  end.

(** [v] is a state the execution of a program goes through: before it, after it, between its calls. *)
Fixpoint visits (p : prog P) (w v : world P) : Prop :=
  v = w \/ v = fst (run ptrue peqb p w) \/
  match p with
  | Skip | Raise _ | Do _ => False
  | Seq p q => visits p w v \/
      match run ptrue peqb p w with (w', Ok _) => visits q w' v | _ => False end
  | With c body =>
      match (let! a := context c in ctx_enter a) w with
      | (w', Ok _) => visits body w' v
      | _ => False
      end
  | Frozen body =>
      match set_frozen true CircuitError w with
      | (w', Ok _) => visits body w' v
      | _ => False
      end
  | Try body => visits body w v
  end.

(** A program that starts from nothing and whose calls satisfy [ok] goes through the state. *)
Definition reaches (ok : world P -> call P -> Prop) (v : world P) : Prop :=
  exists ks p, executes ok p (start P ks) /\ visits p (start P ks) v.

(** Fewer qubits and bits than the machine word can count. *)
Definition small (w : world P) : Prop :=
  ssize_ok (zn (List.length (w_qubit w)) + 1) = true /\
  ssize_ok (zn (List.length (w_bit w)) + 1) = true.

(** Registers are changed only through the circuit's own methods. *)
Definition own_methods (w : world P) (x : call P) : Prop :=
  match x with
  | CQRegAdd _ _ _ _ | CCRegAdd _ _ _ _ => False
  | _ => True
  end.

(** No bit of the circuit holds as value its own position in the circuit. *)
Definition clear_at (w : world P) (x : circ) : Prop :=
  forall i b, nth_error (circuit_bits x) i = Some (IBit b) ->
    forall v, bit_value w b = Some v -> i <> (if v then 1 else 0).

(** This holds of every circuit whose [bits] have yet to be computed. *)
Definition clear (w : world P) : Prop :=
  forall c x, nth_error (w_circ w) c = Some x -> s_cache (c_b x) = None -> clear_at w x.

(** The call leaves every circuit so. *)
Definition leaves_clear (w : world P) (x : call P) : Prop := clear (fst (do_call ptrue peqb x w)).

(** The calls that make [bits] be computed anew find the circuit so. *)
Definition rebuilds_clear (w : world P) (x : call P) : Prop :=
  match x with
  | CAddBit _ c _ _ | CAddCReg _ c _ _ =>
      forall x, nth_error (w_circ w) c = Some x -> clear_at w x
  | _ => True
  end.

(** Bits given to [add_bit] do not hold the value 1. *)
Definition unset_bits_added (w : world P) (x : call P) : Prop :=
  match x with
  | CAddBit _ _ (AItem b) _ => bit_value w b <> Some true
  | _ => True
  end.

(** Nobody sets a bit. *)
Definition no_bit_set (x : call P) : Prop := match x with CBitSet _ _ _ _ => False | _ => True end.

(** [reset] is not called with [keep_registers=False]. *)
Definition keeps_registers (x : call P) : Prop := match x with CReset _ _ false => False | _ => True end.

Definition classical_ok (w : world P) (x : call P) : Prop :=
  own_methods w x /\ unset_bits_added w x /\ rebuilds_clear w x /\ leaves_clear w x.
Definition quiet_ok (w : world P) (x : call P) : Prop := own_methods w x /\ no_bit_set x.
End Spec.

(** Registers without repetition and without a common item. *)
Definition separate (rs : list (label * register)) : Prop :=
  (forall i l r, nth_error rs i = Some (l, r) -> NoDup (contents r)) /\
  (forall i j l r l' r' v, nth_error rs i = Some (l, r) -> nth_error rs j = Some (l', r') ->
     In v (contents r) -> In v (contents r') -> i = j).

(** The item is a qubit or a bit with this label. *)
Definition has_label {P} (w : world P) (l : label) (v : item) : Prop :=
  match v with
  | IQubit q => nth_error (w_qubit w) q = Some l
  | IBit b => exists o, nth_error (w_bit w) b = Some (l, o)
  | _ => False
  end.

(** What looking for a label among items gives: the first one, or all of them in order. *)
Definition lookup_first {P} (w : world P) (l : label) (its : list item) (out : res (list item)) : Prop :=
  (exists pre v post, its = pre ++ v :: post /\ has_label w l v /\ Forall (fun u => ~ has_label w l u) pre /\
     out = Ok [v]) \/
  (Forall (fun u => ~ has_label w l u) its /\ out = Err ValueError).
Definition lookup_all {P} (w : world P) (l : label) (its : list item) (out : res (list item)) : Prop :=
  exists f, (forall v, In v its -> (f v = true <-> has_label w l v)) /\
    out = match filter f its with [] => Err ValueError | vs => Ok vs end.

(** One register more, and that one empty. *)
Definition empty_register_more (rs rs' : list (label * register)) : Prop :=
  exists l r, rs' = rs ++ [(l, r)] /\ ~ In l (map fst rs) /\ contents r = [].

(** The default name of the next register. *)
Definition default_qlabel (x : circ) : label :=
  LStr (String.append "qreg" (py_str (List.length (s_regs (c_q x))))).
Definition default_clabel (x : circ) : label :=
  LStr (String.append "creg" (py_str (List.length (s_regs (c_b x))))).

(** No register is given a name that starts like the default names. *)
Definition own_labels {P} (x : call P) : Prop :=
  match x with
  | CAddQubit _ _ _ l | CAddQReg _ _ _ l => forall s, l <> LStr (String.append "qreg" s)
  | CAddBit _ _ _ l | CAddCReg _ _ _ l => forall s, l <> LStr (String.append "creg" s)
  | _ => True
  end.

(** The items of the register with a given name; none if there is no such register. *)
Definition contents_at (rs : list (label * register)) (l : label) : list item :=
  match dget label_eqb l rs with Some r => contents r | None => [] end.
Definition frozen_at (rs : list (label * register)) (l : label) : bool :=
  match dget label_eqb l rs with Some r => match frozen_ r with Some b => b | None => false end | None => false end.

(** The register a call without label or with label [l] adds to: the one of that name, the first one, or
    the one about to be made. *)
Definition target (deflt : label) (rs : list (label * register)) (l : label) : label :=
  match l with
  | LNone => match rs with [] => deflt | (l', _) :: _ => l' end
  | _ => l
  end.

(** Only circuit [c] differs. *)
Definition others_same {P} (c : nat) (w w' : world P) : Prop :=
  forall d, d <> c -> nth_error (w_circ w') d = nth_error (w_circ w) d.

(** What looking for an item in the registers gives: the position and the name of the register and the
    position in it, or ValueError. *)
Definition found (rs : list (label * register)) (u : item) (out : res (nat * label * Z)) : Prop :=
  (forall i l k, out = Ok (i, l, k) <->
     exists r j, nth_error rs i = Some (l, r) /\ nth_error (contents r) j = Some u /\ k = zn j) /\
  (forall e, out = Err e <-> e = ValueError /\ ~ In u (all_items rs)).

(** What looking for a label gives: in the register named, or in all of them if no name is given. *)
Definition looked_up {P} (v : world P) (rs : list (label * register)) (l rl : label) (all : bool) (out : res (list item)) : Prop :=
  match (if label_true rl then match dget label_eqb rl rs with Some r => Some (contents r) | None => None end
         else Some (all_items rs)) with
  | None => out = Err KeyError
  | Some its => if all then lookup_all v l its out else lookup_first v l its out
  end.

(** When [add_qubit] or [add_bit] raises, and what; [d] names the register to be added to. *)
Definition add_error (mk : nat -> item) (rs : list (label * register)) (d : label) (a : arg) (e : exn) : Prop :=
  (e = TypeError /\ a = ABad) \/
  (e = ValueError /\ exists q, a = AItem q /\ In (mk q) (all_items rs)) \/
  (e = RegisterError /\ a <> ABad /\ ~ (exists q, a = AItem q /\ In (mk q) (all_items rs)) /\
   frozen_at rs d = true).


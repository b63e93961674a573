(** Model of dwave/gate/mixedproperty.py: a property that is read on classes and on instances, within
    Python's attribute lookup, and of the lock on class attributes (operations/base.py:158-170). *)
From Coq Require Import List String Bool Arith.
From Verif Require Import Py WorldModel.
Import ListNotations.
Local Open Scope string_scope.
Local Open Scope list_scope.

Section Mixed.
(** Values of attributes, and everything else that a wrapped function may look at. *)
Variable V : Type.
Variable env : Type.
(** Python's [None]. *)
Variable none : V.

(** The wrapped function by the number of its parameters (mixedproperty.py:119): the class; the class and
    the instance or None; or another number without defaults, for which the call fails.
    Classes and instances are numbered.  Functions change no attributes. *)
Inductive wrapped :=
| WClass (f : env -> nat -> res V)
| WBoth (f : env -> nat -> option nat -> res V)
| WOther (n : nat).
(** mixedproperty.py:82-85; [_self_required] *)
Record mixed := mkMixed { m_required : bool; m_fun : wrapped }.

(** mixedproperty.py:103-127 *)
Definition mget (p : mixed) (e : env) (instance : option nat) (c : nat) : res V :=
  let num_parameters := match m_fun p with WClass _ => 1 | WBoth _ => 2 | WOther n => n end in
  if (m_required p && Nat.leb 2 num_parameters && match instance with None => true | Some _ => false end)%bool
  then Ok none
  else match m_fun p with
       | WClass f => f e c
       | WBoth f => f e c instance
       | WOther _ => Err TypeError
       end.

(** What a class attribute is. *)
Inductive entry := EMixed (p : mixed) | EValue (v : V).
(** A class: its method resolution order (itself included), its own attributes, and the names that its
    metaclass locks (operations/base.py:162-164). *)
Record cls := mkCls { k_mro : list nat; k_dict : list (string * entry); k_locked : list string }.
Record inst := mkInst { i_cls : nat; i_dict : list (string * V) }.
Record mworld := mkM { m_cls : list cls; m_inst : list inst }.

(** [_PyType_Lookup]: the first class of the order that has the name. *)
Fixpoint seek (w : mworld) (n : string) (mro : list nat) : option entry :=
  match mro with
  | [] => None
  | c :: mro' =>
      match nth_error (m_cls w) c with
      | None => seek w n mro'
      | Some k => match dget String.eqb n (k_dict k) with Some x => Some x | None => seek w n mro' end
      end
  end.
Definition type_lookup (w : mworld) (c : nat) (n : string) : option entry :=
  match nth_error (m_cls w) c with None => None | Some k => seek w n (k_mro k) end.

(** [C.n].  Attributes of the metaclass are left out. *)
Definition get_class (w : mworld) (e : env) (c : nat) (n : string) : res V :=
  match type_lookup w c n with
  | Some (EMixed p) => mget p e None c
  | Some (EValue v) => Ok v
  | None => Err AttributeError
  end.
(** [x.n]: a mixed property has [__set__], so it comes before the instance's own attributes. *)
Definition get_inst (w : mworld) (e : env) (o : nat) (n : string) : res V :=
  match nth_error (m_inst w) o with
  | None => Err IndexError
  | Some i =>
      match type_lookup w (i_cls i) n with
      | Some (EMixed p) => mget p e (Some o) (i_cls i)
      | x => match dget String.eqb n (i_dict i) with
             | Some v => Ok v
             | None => match x with Some (EValue v) => Ok v | _ => Err AttributeError end
             end
      end
  end.

Definition put_cls (w : mworld) (c : nat) (k : cls) : mworld := mkM (set_nth c k (m_cls w)) (m_inst w).
Definition put_inst (w : mworld) (o : nat) (i : inst) : mworld := mkM (m_cls w) (set_nth o i (m_inst w)).

Inductive mcall :=
| MNewClass (bases : list nat) (dict : list (string * entry)) (locked : list string)  (* class statement; [bases]: the order after the class itself *)
| MNewInst (c : nat)
| MSetInst (o : nat) (n : string) (v : V)     (* x.n = v; mixedproperty.py:129-130 *)
| MDictInst (o : nat) (n : string) (v : V)    (* x.__dict__[n] = v *)
| MDelInst (o : nat) (n : string)             (* del x.n *)
| MSetClass (c : nat) (n : string) (v : entry)  (* C.n = v; operations/base.py:166-170 *)
| MDelClass (c : nat) (n : string).           (* del C.n *)

Definition ddel {A} (n : string) (d : list (string * A)) : list (string * A) :=
  filter (fun x => negb (String.eqb (fst x) n)) d.

Definition mstep (x : mcall) (w : mworld) : mworld * res unit :=
  match x with
  | MNewClass bases d l =>
      (mkM (m_cls w ++ [mkCls (List.length (m_cls w) :: bases) d l]) (m_inst w), Ok tt)
  | MNewInst c =>
      if Nat.ltb c (List.length (m_cls w)) then (mkM (m_cls w) (m_inst w ++ [mkInst c []]), Ok tt) else (w, Err IndexError)
  | MSetInst o n v =>
      match nth_error (m_inst w) o with
      | None => (w, Err IndexError)
      | Some i =>
          match type_lookup w (i_cls i) n with
          | Some (EMixed _) => (w, Err AttributeError)
          | _ => (put_inst w o (mkInst (i_cls i) (dset String.eqb n v (i_dict i))), Ok tt)
          end
      end
  | MDictInst o n v =>
      match nth_error (m_inst w) o with
      | None => (w, Err IndexError)
      | Some i => (put_inst w o (mkInst (i_cls i) (dset String.eqb n v (i_dict i))), Ok tt)
      end
  | MDelInst o n =>
      match nth_error (m_inst w) o with
      | None => (w, Err IndexError)
      | Some i =>
          match type_lookup w (i_cls i) n, dget String.eqb n (i_dict i) with
          | Some (EMixed _), _ => (w, Err AttributeError)
          | _, None => (w, Err AttributeError)
          | _, Some _ => (put_inst w o (mkInst (i_cls i) (ddel n (i_dict i))), Ok tt)
          end
      end
  | MSetClass c n v =>
      match nth_error (m_cls w) c with
      | None => (w, Err IndexError)
      | Some k => if existsb (String.eqb n) (k_locked k) then (w, Err ValueError)
                  else (put_cls w c (mkCls (k_mro k) (dset String.eqb n v (k_dict k)) (k_locked k)), Ok tt)
      end
  | MDelClass c n =>
      match nth_error (m_cls w) c with
      | None => (w, Err IndexError)
      | Some k => match dget String.eqb n (k_dict k) with
                  | Some _ => (put_cls w c (mkCls (k_mro k) (ddel n (k_dict k)) (k_locked k)), Ok tt)
                  | None => (w, Err AttributeError)
                  end
      end
  end.
(** Exceptions are caught and the next call is made. *)
Fixpoint mruns (xs : list mcall) (w : mworld) : mworld :=
  match xs with [] => w | x :: xs' => mruns xs' (fst (mstep x w)) end.

(** [ControlledOperation.matrix] (operations/base.py:543-578): first the target's matrix, then, when a
    context is active, [self.control]; [target] and [rest] stand for what is computed. *)
Definition controlled_matrix (active : env -> bool) (target : env -> nat -> option nat -> res V)
    (rest : env -> nat -> option nat -> V -> res V) : mixed :=
  mkMixed false (WBoth (fun e c i =>
    match target e c i with
    | Err x => Err x
    | Ok t => match i with
              | None => if active e then Err AttributeError else rest e c None t
              | Some o => rest e c (Some o) t
              end
    end)).
End Mixed.

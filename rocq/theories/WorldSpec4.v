(** Words for what happens to the operations of a circuit and to those of a called circuit. *)
From Coq Require Import List ZArith String Bool Arith Lia.
From Verif Require Import Py RegisterModel RegisterSpec WorldModel WorldSpec WorldSpec3.
Import ListNotations.

Section Spec4.
Variable P : Type.

(** [op.qubits = …] on an existing operation (base.py:302-309) *)
Definition sets_qubits (x : call P) : Prop := match x with CSetQubits _ _ _ => True | _ => False end.

(** Registers change through the circuit's methods only, are not dropped, and operations keep their qubits. *)
Definition own_ok (w : world P) (x : call P) : Prop :=
  own_methods P w x /\ keeps_registers P x /\ ~ sets_qubits x.

(** A circuit is called with bits: its [bits] and the given ones. *)
Definition bits_given (w : world P) (t : nat) (ba : bargs) : option (list item * list item) -> Prop :=
  fun o => match bargs_list w ba with
           | None => o = None
           | Some bs => exists vb kb, snd (bits t w) = Ok vb /\ items (core vb) = Ok kb /\ List.length bs = List.length kb /\ o = Some (kb, bs)
           end.

(** The i-th of one list for the i-th of another. *)
Definition renamed (from to : list item) (q q' : item) : Prop := exists i, nth_error from i = Some q /\ nth_error to i = Some q'.

Variable ptrue : P -> bool.

(** The operation [z] repeats the operation [y] of kind [k] in the world [w]: same class, the qubits [kq]
    exchanged for [qs] and the bits [kb] for [bs], no condition.  The parameters are the same, except that a
    variable gives way to its value, as told by [S], when a [ParametricOperation] is recorded in a circuit
    without parameters. *)
Section Repeat.
Variable S : param P -> param P -> Prop.
Definition same_params (w : world P) (k : kind) (ps ps' : list (param P)) : Prop :=
  match k with
  | KParam =>
      match recording P w with
      | Some d => exists x, nth_error (w_circ w) d = Some x /\ (takes_variables x -> ps' = ps) /\ (~ takes_variables x -> Forall2 S ps ps')
      | None => ps' = ps
      end
  | KParCtrl => ps' = ps
  | _ => ps' = []
  end.
Record repeats (w : world P) (kq qs : list item) (kbs : option (list item * list item)) (k : kind) (y z : opobj P) : Prop := {
  rp_cls : o_cls z = o_cls y;
  rp_qubits : exists l, o_qubits z = Some l /\ Forall2 (renamed kq qs) (oqubits y) l;
  rp_params : same_params w k (o_params y) (o_params z);
  rp_bits : match k, kbs with
            | KMeas, Some (kb, bs) => exists l, o_bits z = Some l /\ Forall2 (renamed kb bs) (match o_bits y with Some b => b | None => [] end) l
            | _, _ => o_bits z = None
            end;
  rp_cond : o_cond z = None
}.
End Repeat.

(** The variables [vs] of a called circuit give way to the values [ps] of the call, others to the value
    they have.  A value that counts as false is never taken. *)
Definition given_value (w : world P) (vs : list nat) (ps : list P) (p q : param P) : Prop :=
  match p with
  | PNum z => q = PNum z
  | PVar n => (exists i z, nth_error vs i = Some n /\ nth_error ps i = Some z /\ ptrue z = true /\ q = PNum z) \/
              (~ In n vs /\ stands_for P ptrue w p q)
  end.

(** The variables [vs] have got the values [ps]. *)
Definition assigned (vs : list nat) (ps : list P) (l l' : list (string * option P)) : Prop :=
  List.length l' = List.length l /\
  (forall i n p, nth_error vs i = Some n -> nth_error ps i = Some p -> exists s, nth_error l' n = Some (s, Some p)) /\
  (forall n, ~ In n vs -> nth_error l' n = nth_error l n).

(** Nothing but numbers. *)
Definition number (p : param P) : Prop := exists z, p = PNum z.

(** The circuit whose context is active. *)
Definition current (w : world P) (d : nat) : Prop := exists a f, w_active w = Some a /\ nth_error (w_ctx w) a = Some (d, f).

(** From [w] to [w'] the objects [l] were added to the circuit that records and nothing else was done to
    circuits, qubits, bits and contexts. *)
Record only_adds (w w' : world P) (l : list nat) : Prop := {
  oa_len : List.length (w_circ w') = List.length (w_circ w);
  oa_circ : forall c y, nth_error (w_circ w) c = Some y -> exists y', nth_error (w_circ w') c = Some y' /\
     (recording P w = Some c -> recorded y y' l) /\ (recording P w <> Some c -> recorded y y' []);
  oa_qubit : w_qubit w' = w_qubit w;
  oa_bit : w_bit w' = w_bit w;
  oa_ctx : w_ctx w' = w_ctx w;
  oa_active : w_active w' = w_active w
}.
End Spec4.

(** The qubit is an item of one of the circuit's quantum registers. *)
Definition in_qreg (x : circ) (q : item) : Prop := exists l r, In (l, r) (s_regs (c_q x)) /\ In q (contents r).

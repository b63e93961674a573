(** Boolean versions of conditions on executions, used by the examples. *)
From Coq Require Import List ZArith String Bool Arith Lia.
From Verif Require Import Py RegisterModel WorldModel WorldSpec.
Import ListNotations.
Local Open Scope nat_scope.

Section Check.
Variable P : Type.
Variable ptrue : P -> bool.
Variable peqb : P -> P -> bool.
Notation world := (world P).

Fixpoint clear_from (w : world) (i : nat) (its : list item) : bool :=
  match its with
  | [] => true
  | IBit b :: t =>
      (match bit_value P w b with Some v => negb (Nat.eqb i (if v then 1 else 0)) | None => true end) && clear_from w (S i) t
  | _ :: t => clear_from w (S i) t
  end.
Lemma clear_from_sound w its : forall i, clear_from w i its = true ->
  forall j b, nth_error its j = Some (IBit b) -> forall v, bit_value P w b = Some v -> i + j <> (if v then 1 else 0).
Proof.
  induction its as [|it its IH]; intros i H j b Hj v Hv; [destruct j; discriminate|].
  destruct j as [|j]; simpl in Hj.
  - injection Hj as ->. simpl in H. rewrite Hv in H. apply andb_true_iff in H. destruct H as [H _].
    apply negb_true_iff, Nat.eqb_neq in H. lia.
  - assert (H' : clear_from w (S i) its = true).
    { destruct it; simpl in H; auto. apply andb_true_iff in H. tauto. }
    specialize (IH (S i) H' j b Hj v Hv). lia.
Qed.

Definition clearb_at (w : world) (x : circ) : bool := clear_from w 0 (circuit_bits x).
Lemma clearb_at_sound w x : clearb_at w x = true -> clear_at P w x.
Proof. intros H i b Hi v Hv. exact (clear_from_sound w _ 0 H i b Hi v Hv). Qed.

Definition clearb (w : world) : bool :=
  forallb (fun x => match s_cache (c_b x) with None => clearb_at w x | Some _ => true end) (w_circ w).
Lemma clearb_sound w : clearb w = true -> clear P w.
Proof.
  intros H c x E Hc. unfold clearb in H. rewrite forallb_forall in H. specialize (H x (nth_error_In _ _ E)).
  rewrite Hc in H. now apply clearb_at_sound.
Qed.

Definition ownb (x : call P) : bool := match x with CQRegAdd _ _ _ _ | CCRegAdd _ _ _ _ => false | _ => true end.
Definition classicalb (w : world) (x : call P) : bool :=
  ownb x && match x with CAddBit _ _ (AItem b) _ => match bit_value P w b with Some true => false | _ => true end | _ => true end
  && match x with
     | CAddBit _ c _ _ | CAddCReg _ c _ _ => match nth_error (w_circ w) c with Some y => clearb_at w y | None => true end
     | _ => true
     end
  && clearb (fst (do_call ptrue peqb x w)).
Lemma classicalb_sound w x : classicalb w x = true -> classical_ok P ptrue peqb w x.
Proof.
  unfold classicalb. rewrite !andb_true_iff. intros [[[H1 H2] H3] H4]. split; [destruct x; try discriminate H1; exact I|].
  split; [|split].
  - destruct x; simpl in *; auto. destruct a; auto. destruct (bit_value P w i) as [[|]|]; congruence.
  - destruct x; simpl in *; auto; intros y Hy; rewrite Hy in H3; now apply clearb_at_sound.
  - now apply clearb_sound.
Qed.

Fixpoint executesb (ok : world -> call P -> bool) (p : prog P) (w : world) : bool :=
  match p with
  | Skip | Raise _ => true
  | Do x => ok w x
  | Seq p q => executesb ok p w &&
      match run ptrue peqb p w with (w', Ok _) => executesb ok q w' | _ => true end
  | With c body =>
      match (let! a := context c in ctx_enter a) w with
      | (w', Ok _) => executesb ok body w'
      | _ => true
      end
  | Frozen body =>
      match set_frozen true CircuitError w with
      | (w', Ok _) => executesb ok body w'
      | _ => true
      end
  | Try body => executesb ok body w
  end.
Lemma executesb_sound (okb : world -> call P -> bool) (ok : world -> call P -> Prop) :
  (forall w x, okb w x = true -> ok w x) ->
  forall p w, executesb okb p w = true -> executes P ptrue peqb ok p w.
Proof.
  intros H p. induction p; simpl; intros w He; auto.
  - apply andb_true_iff in He. destruct He as [H1 H2]. split; [auto|].
    destruct (run ptrue peqb p1 w) as [w' [u|e]]; auto.
  - match goal with |- (let (_, _) := ?m w in _) => destruct (m w) as [w' [u|e]]; auto end.
  - destruct (set_frozen _ _ w) as [w' [u|e]]; auto.
Qed.

(** The state after a program that passes the check is reached. *)
Lemma reaches_run (okb : world -> call P -> bool) (ok : world -> call P -> Prop) ks p :
  (forall w x, okb w x = true -> ok w x) -> executesb okb p (start P ks) = true ->
  reaches P ptrue peqb ok (fst (run ptrue peqb p (start P ks))).
Proof.
  intros H He. exists ks, p. split; [eapply executesb_sound; eauto|]. destruct p; simpl; auto.
Qed.
End Check.

(** Programs as lists of calls. *)
Fixpoint calls {P} (l : list (call P)) : prog P :=
  match l with [] => Skip | [x] => Do x | x :: l' => Seq (Do x) (calls l') end.

(** Integers as parameters. *)
Definition ztrue (z : Z) : bool := negb (Z.eqb z 0).
Notation zrun := (run ztrue Z.eqb).
Notation zstart := (start Z).
Notation zreaches := (reaches Z ztrue Z.eqb).

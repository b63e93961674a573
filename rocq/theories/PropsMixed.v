(** C56: mixed properties on classes and instances. *)
From Coq Require Import List String Bool Arith.
From Verif Require Import Py MixedModel MixedSpec MixedProofs.
Import ListNotations.
Local Open Scope string_scope.
Local Open Scope list_scope.

(** After any program that does not set or delete the name on a class (attempts that the lock refuses are
    allowed), a property read on an instance evaluates with that instance, whatever the instance's own
    attributes are, and whether or not the property is marked as needing an instance. *)
Theorem C56_instance :
  forall (V env : Type) (none : V) (w : mworld V env) (xs : list (mcall V env)) (c : nat) (n : string) (p : mixed V env) (o : nat) i e,
    bases_exist V env w c -> inherits V env w c n (EMixed V env p) ->
    (forall x, In x xs -> ~ touches V env w c n x) ->
    nth_error (m_inst V env (mruns V env xs w)) o = Some i -> i_cls V i = c ->
    (forall f, m_fun V env p = WBoth V env f -> get_inst V env none (mruns V env xs w) e o n = f e c (Some o)) /\
    (forall f, m_fun V env p = WClass V env f -> get_inst V env none (mruns V env xs w) e o n = f e c).
Proof. exact instance_reads. Qed.
Print Assumptions C56_instance.

(** Read on the class it evaluates with no instance, giving None if it is marked as needing one. *)
Theorem C56_class :
  forall (V env : Type) (none : V) (w : mworld V env) (xs : list (mcall V env)) (c : nat) (n : string) (p : mixed V env) e,
    bases_exist V env w c -> inherits V env w c n (EMixed V env p) ->
    (forall x, In x xs -> ~ touches V env w c n x) ->
    (forall f, m_fun V env p = WBoth V env f -> m_required V env p = true ->
       get_class V env none (mruns V env xs w) e c n = Ok none) /\
    (forall f, m_fun V env p = WBoth V env f -> m_required V env p = false ->
       get_class V env none (mruns V env xs w) e c n = f e c None) /\
    (forall f, m_fun V env p = WClass V env f -> get_class V env none (mruns V env xs w) e c n = f e c).
Proof. exact class_reads. Qed.
Print Assumptions C56_class.

(** Setting or deleting it on an instance raises and changes nothing. *)
Theorem C56_readonly :
  forall (V env : Type) (w : mworld V env) (o : nat) i (n : string) (p : mixed V env) (v : V),
    nth_error (m_inst V env w) o = Some i -> inherits V env w (i_cls V i) n (EMixed V env p) ->
    mstep V env (MSetInst V env o n v) w = (w, Err AttributeError) /\
    mstep V env (MDelInst V env o n) w = (w, Err AttributeError).
Proof. exact instance_readonly. Qed.
Print Assumptions C56_readonly.

(** Setting a locked name on a class raises and changes nothing. *)
Theorem C56_locked :
  forall (V env : Type) (w : mworld V env) (k : nat) (n : string) (v : entry V env),
    locks V env w k n -> mstep V env (MSetClass V env k n v) w = (w, Err ValueError).
Proof. exact class_locked. Qed.
Print Assumptions C56_locked.

(** The matrix of a controlled operation, which is not marked as needing an instance: read on the class
    under an active context it raises, without one it is computed with no instance. *)
Theorem C56_controlled :
  forall (V env : Type) (none : V) (active : env -> bool) target rest (w : mworld V env) (xs : list (mcall V env)) (c : nat) e t,
    bases_exist V env w c -> inherits V env w c "matrix" (EMixed V env (controlled_matrix V env active target rest)) ->
    (forall x, In x xs -> ~ touches V env w c "matrix" x) ->
    target e c None = Ok t ->
    get_class V env none (mruns V env xs w) e c "matrix" =
    (if active e then Err AttributeError else rest e c None t).
Proof. exact controlled_reads. Qed.
Print Assumptions C56_controlled.

(** ** A case: an operation class with a locked matrix and an unlocked number of qubits, a subclass whose
    matrix needs an instance, and a controlled operation.  Values are numbers, 0 is None; the environment
    says whether a context is active. *)
Definition number_of : mixed nat bool := mkMixed nat bool false (WBoth nat bool (fun _ c i => match i with Some o => Ok (100 + o) | None => Ok c end)).
Definition needs : mixed nat bool := mkMixed nat bool true (WBoth nat bool (fun _ c i => match i with Some o => Ok (10 * S c + o) | None => Err AttributeError end)).
Definition ctrl : mixed nat bool := controlled_matrix nat bool (fun e => e) (fun _ _ _ => Ok 7) (fun _ c i t => Ok (t + c)).
Definition classes : list (mcall nat bool) :=
  [MNewClass nat bool [] [("matrix", EMixed nat bool (mkMixed nat bool false (WClass nat bool (fun _ c => Ok (50 + c))))); ("num_qubits", EMixed nat bool number_of)] ["matrix"];
   MNewClass nat bool [0] [("matrix", EMixed nat bool needs)] ["matrix"];
   MNewClass nat bool [0] [("matrix", EMixed nat bool ctrl)] ["matrix"];
   MNewInst nat bool 1; MNewInst nat bool 2].
Definition made := mruns nat bool classes (mkM nat bool [] []).
Definition pokes : list (mcall nat bool) :=
  [MSetInst nat bool 0 "matrix" 3; MDictInst nat bool 0 "matrix" 3; MDelInst nat bool 0 "matrix"; MSetClass nat bool 1 "matrix" (EValue nat bool 3);
   MSetClass nat bool 0 "matrix" (EValue nat bool 3); MDelClass nat bool 2 "matrix"; MNewClass nat bool [1; 0] [("matrix", EValue nat bool 4)] []; MNewInst nat bool 3].
Example C56_case :
  bases_exist nat bool made 1 /\ inherits nat bool made 1 "matrix" (EMixed nat bool needs) /\
  (forall x, In x pokes -> ~ touches nat bool made 1 "matrix" x) /\
  inherits nat bool made 2 "matrix" (EMixed nat bool ctrl) /\
  get_inst nat bool 0 (mruns nat bool pokes made) false 0 "matrix" = Ok 20 /\
  get_class nat bool 0 (mruns nat bool pokes made) false 1 "matrix" = Ok 0 /\
  get_class nat bool 0 made true 2 "matrix" = Err AttributeError /\
  get_class nat bool 0 made false 2 "matrix" = Ok 9 /\
  get_inst nat bool 0 made true 1 "matrix" = Ok 9 /\
  get_inst nat bool 0 made true 1 "num_qubits" = Ok 101 /\ get_class nat bool 0 made true 1 "num_qubits" = Ok 1.
Proof.
  split; [|split; [|split; [|split; [|vm_compute; repeat split]]]].
  - intros K k E H. vm_compute in E. injection E as <-. cbn in H. destruct H as [<-|[<-|[]]]; cbn; auto.
  - apply lookup_inherits. reflexivity.
  - intros x Hx (K & k & E & Hk & H). vm_compute in E. injection E as <-. cbn in Hk.
    destruct Hk as [<-|[<-|[]]]; cbn in Hx; destruct H as [((v & ->) & Hl)| -> ];
      repeat destruct Hx as [Hx|Hx]; try discriminate Hx; try destruct Hx; apply Hl; eexists; (split; [reflexivity|]); cbn; auto.
  - apply lookup_inherits. reflexivity.
Qed.

(** Names that are not locked are overwritten by an assignment on the class: afterwards neither the class
    nor its instances read the property. *)
Theorem C56_overwritten_refuted :
  exists (w : mworld nat bool) (x : mcall nat bool) (c o : nat) (n : string) (p : mixed nat bool) (i : inst nat),
    nth_error (m_inst nat bool w) o = Some i /\ i_cls nat i = c /\ inherits nat bool w c n (EMixed nat bool p) /\
    snd (mstep nat bool x w) = Ok tt /\
    forall e, get_inst nat bool 0 w e o n = Ok 100 /\ get_class nat bool 0 w e c n = Ok 1 /\
              get_inst nat bool 0 (fst (mstep nat bool x w)) e o n = Ok 5 /\
              get_class nat bool 0 (fst (mstep nat bool x w)) e c n = Ok 5.
Proof.
  exists made, (MSetClass nat bool 0 "num_qubits" (EValue nat bool 5)), 1, 0, "num_qubits", number_of. eexists.
  split; [reflexivity|]. split; [reflexivity|]. split; [apply lookup_inherits; reflexivity|]. split; [reflexivity|]. intros e. vm_compute. auto.
Qed.
Print Assumptions C56_overwritten_refuted.

(** Deleting is not refused on a class, not even for a locked name: the base class's matrix shows. *)
Theorem C56_deleted_refuted :
  exists (w : mworld nat bool) (c o : nat) (n : string) (p : mixed nat bool) (i : inst nat),
    nth_error (m_inst nat bool w) o = Some i /\ i_cls nat i = c /\ inherits nat bool w c n (EMixed nat bool p) /\ locks nat bool w c n /\
    snd (mstep nat bool (MDelClass nat bool c n) w) = Ok tt /\
    forall e, get_inst nat bool 0 w e o n = Ok 20 /\ get_inst nat bool 0 (fst (mstep nat bool (MDelClass nat bool c n) w)) e o n = Ok 51.
Proof.
  exists made, 1, 0, "matrix", needs. eexists. split; [reflexivity|]. split; [reflexivity|]. split; [apply lookup_inherits; reflexivity|].
  split; [eexists; split; [reflexivity|left; reflexivity]|]. split; [reflexivity|]. intros e. vm_compute. auto.
Qed.
Print Assumptions C56_deleted_refuted.

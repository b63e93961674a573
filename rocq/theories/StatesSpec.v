(** Specifications for C79: what the state of a circuit can be, and which statements of a program are about it. *)
From Coq Require Import List NArith ZArith String Bool Reals.
From Verif Require Import Py CRing Cplx SimModel SimReal StateModel RegisterModel WorldModel LinkModel SessionModel.
Import ListNotations.
Local Open Scope R_scope.

(** The 2-norm of [d] numbers is 1 up to numpy's default tolerances. *)
Definition nearly_one (d : N) (v : N -> C) : Prop :=
  Rabs (sqrt (Rsum (Nrange d) (fun i => Cnorm2 (v i))) - 1) <= 1 / 100000000 + 1 / 100000.

(** Nothing; a vector of a power of 2 amplitudes; such a vector together with the matrix of the products of its
    amplitudes; or a square matrix. *)
Inductive lawful : cst -> Prop :=
| lawful_unset : lawful (mkCst None None)
| lawful_vector k v : (0 < k)%N -> nearly_one (2 ^ k) v -> lawful (mkCst (Some (mkArr [2 ^ k]%N v)) None)
| lawful_both k v rho : (0 < k)%N -> nearly_one (2 ^ k) v ->
    (forall i j, (i < 2 ^ k)%N -> (j < 2 ^ k)%N -> rho (i * 2 ^ k + j)%N = Cmul (v i) (v j)) ->
    lawful (mkCst (Some (mkArr [2 ^ k]%N v)) (Some (mkArr [2 ^ k; 2 ^ k]%N rho)))
| lawful_matrix k rho : (0 < k)%N -> nearly_one (2 ^ k * 2 ^ k) rho ->
    lawful (mkCst None (Some (mkArr [2 ^ k; 2 ^ k]%N rho))).

(** The program simulates circuit [c], sets its state or reads its density matrix. *)
Fixpoint concerns (c : nat) (p : sprog) : Prop :=
  match p with
  | SSim c' _ _ _ | SDm c' | SSet c' _ _ _ => c' = c
  | SSeq p q => concerns c p \/ concerns c q
  | SWith _ body | SFrozen body | STry body => concerns c body
  | SSkip | SDo _ | SState _ | SRaise _ => False
  end.

(** No statement of the program can fail because of a state set earlier. *)
Fixpoint heedless (p : sprog) : Prop :=
  match p with
  | SSet _ _ force _ => force = true
  | SState _ => False
  | SSeq p q => heedless p /\ heedless q
  | SWith _ body | SFrozen body | STry body => heedless body
  | SSkip | SDo _ | SSim _ _ _ _ | SDm _ | SRaise _ => True
  end.

(** Two sessions that differ in the states of circuits at most. *)
Definition same_but_states (s t : session) : Prop := s_w t = s_w s /\ s_mst t = s_mst s /\ s_idx t = s_idx s.

(** The array that set_state stores, as the state or as the density matrix. *)
Definition holds (st : cst) (a : arr) : Prop :=
  (List.length (shape a) = 1%nat /\ st = mkCst (Some a) None) \/ (List.length (shape a) <> 1%nat /\ st = mkCst None (Some a)).

(** The 2-norm of all entries. *)
Definition entries (a : arr) : N := fold_left N.mul (shape a) 1%N.
Definition norm (a : arr) : R := sqrt (Rsum (Nrange (entries a)) (fun i => Cnorm2 (data a i))).

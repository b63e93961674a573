(** Specifications for C75: which operations build_unitary can handle, by the names of their classes. *)
From Coq Require Import List NArith String Bool Reals.
From Verif Require Import Py CRing Cplx SimModel RegisterModel WorldModel LinkSpec.
Import ListNotations.
Local Open Scope string_scope.

(** One-qubit gates, and controlled gates without parameters. *)
Definition handled (n : string) : Prop := (exists ps g, stands1 n ps g) \/ exists m g, n = "C" ++ m /\ stands1 m [] g.

(** The error an operation of the class causes otherwise. *)
Inductive refused : string -> exn -> Prop :=
| rf_swap : refused "SWAP" ValueError
| rf_cswap : refused "CSWAP" ValueError
| rf_ccx : refused "CCX" ValueError
| rf_measurement : refused "Measurement" TypeError
| rf_ctrl m a ps g : stands1 m (a :: ps) g -> refused ("C" ++ m) TypeError.

Definition of_name (w : world R) (o : nat) (n : string) : Prop :=
  exists y k, nth_error (w_op w) o = Some y /\ nth_error (w_cls w) (o_cls y) = Some k /\ k_name k = n.

(** The circuit followed by a one-qubit operation with matrix [M] on qubit [q]. *)
Definition custom_after (sd : scirc Ccring) (M : N -> N -> Ccring) (q : nat) : scirc Ccring :=
  mkScirc Ccring (sc_qubits Ccring sd) (sc_ops Ccring sd ++ [mkSop Ccring (KOther Ccring 1 M) (Some [q]) []])%list.

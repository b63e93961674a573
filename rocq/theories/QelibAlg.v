(** Polynomial equations between real numbers, without the notations that the library brings. *)
From Coq Require Import Reals Nsatz.
Ltac poly := nsatz.

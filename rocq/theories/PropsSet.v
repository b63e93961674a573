(** Property C65: registers compare and combine as sets. *)
From Coq Require Import List ZArith Bool Arith Permutation.
From Verif Require Import Py RegisterModel RegisterSpec RegisterProofs RegisterProofs2 SetModel SetProofs.
Import ListNotations.

(** Comparing registers never raises and looks at the items only, not at their order. *)
Theorem C65_compare_partial :
  forall (numeq : item -> Z -> bool), plain numeq ->
  forall (a b : register) (la lb : list item),
    reachable numeq (core a) -> reachable numeq (core b) -> items (core a) = Ok la -> items (core b) = Ok lb ->
    (exists x, set_eq a b = Ok x /\ (x = true <-> Permutation la lb)) /\
    (exists x, set_le a b = Ok x /\ (x = true <-> incl la lb)) /\
    (exists x, set_lt a b = Ok x /\ (x = true <-> incl la lb /\ ~ incl lb la)) /\
    (exists x, set_disjoint a b = Ok x /\ (x = true <-> forall v, In v la -> ~ In v lb)).
Proof. exact set_compare. Qed.
Print Assumptions C65_compare_partial.

(** Intersection, difference, union and symmetric difference: which items, in which order; the result can be added to. *)
Theorem C65_combine :
  forall (numeq : item -> Z -> bool), plain numeq ->
  forall (a b : register) (la lb : list item),
    reachable numeq (core a) -> reachable numeq (core b) -> items (core a) = Ok la -> items (core b) = Ok lb ->
    ~ In INone la -> ~ In INone lb -> ssize_ok (zn (List.length la + List.length lb)) = true ->
    (exists r, set_and numeq a b = Ok r /\ items (core r) = Ok (filter (fun v => inb v la) lb) /\ frozen r = Ok false) /\
    (exists r, set_sub numeq a b = Ok r /\ items (core r) = Ok (filter (fun v => negb (inb v lb)) la) /\ frozen r = Ok false) /\
    (exists r, set_or numeq a b = Ok r /\ items (core r) = Ok (la ++ filter (fun v => negb (inb v la)) lb) /\ frozen r = Ok false) /\
    (exists r, set_xor numeq a b = Ok r /\
       items (core r) = Ok (filter (fun v => negb (inb v lb)) la ++ filter (fun v => negb (inb v la)) lb) /\
       frozen r = Ok false).
Proof. exact set_algebra. Qed.
Print Assumptions C65_combine.

Example C65_example :
  exists a b r, new_register plain_eq [IQubit 1; IQubit 2; IQubit 3] = Ok a /\ new_register plain_eq [IQubit 3; IQubit 4] = Ok b /\
    set_eq a b = Ok false /\ set_disjoint a b = Ok false /\
    set_xor plain_eq a b = Ok r /\ items (core r) = Ok [IQubit 1; IQubit 2; IQubit 4].
Proof. do 3 eexists. repeat split; vm_compute; reflexivity. Qed.

(** Equal registers need not hold an item at the same position: [a == b] but [a[0] != b[0]] and [a.index(x) != b.index(x)]. *)
Theorem C65_equal_same_position_refuted :
  exists (a b : register) (x y : item) (i j : Z),
    new_register plain_eq [IQubit 1; IQubit 2] = Ok a /\ new_register plain_eq [IQubit 2; IQubit 1] = Ok b /\
    set_eq a b = Ok true /\
    getitem (core a) 0 = Ok x /\ getitem (core b) 0 = Ok y /\ x <> y /\
    snd (index plain_eq (core a) x false) = Ok i /\ snd (index plain_eq (core b) x false) = Ok j /\ i <> j.
Proof. do 2 eexists. exists (IQubit 1), (IQubit 2), 0%Z, 1%Z. repeat split; try (vm_compute; reflexivity); discriminate. Qed.
Print Assumptions C65_equal_same_position_refuted.

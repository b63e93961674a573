(** Properties C08 and C09: the id counter. *)
From Coq Require Import List Ascii String Arith.
From Verif Require Import Py CounterModel CounterSpec CounterProofs.
Import ListNotations.

(** C08: whatever the schedule of [next] and [refresh] calls, the choices of [set.pop], the start
    length and the batch size, ids issued after a reset are pairwise distinct strings. *)
Theorem C08_ids_distinct :
  forall (alphanum : list ascii) (s : list ccall) (len bat : option nat),
    NoDup alphanum ->
    NoDup (map string_of_list_ascii (issued (snd (run alphanum s (reset alphanum len bat))))).
Proof.
  exact (fun alpha s len bat H =>
    FinFun.Injective_map_NoDup join_injective (ids_distinct_lemma alpha H s len bat)).
Qed.
Print Assumptions C08_ids_distinct.

(** The shipped alphabet satisfies the hypothesis, so with the shipped settings there is none. *)
Theorem C08_ids_distinct_shipped :
  forall (s : list ccall) (len bat : option nat),
    NoDup (map string_of_list_ascii
                (issued (snd (run default_alphanum s (reset default_alphanum len bat))))).
Proof. exact (fun s len bat => C08_ids_distinct _ s len bat default_alphanum_nodup). Qed.
Print Assumptions C08_ids_distinct_shipped.

(** Every issued id is a selection of distinct letters, in alphabet order, of at least the
    requested length. *)
Theorem C08_ids_wellformed :
  forall (alphanum : list ascii) (s : list ccall) (len bat : option nat) (x : id),
    NoDup alphanum ->
    In x (issued (snd (run alphanum s (reset alphanum len bat)))) ->
    subseq x alphanum /\ or_default len 4 <= List.length x.
Proof. exact (fun alpha s len bat x H => ids_wellformed_lemma alpha H s len bat x). Qed.
Print Assumptions C08_ids_wellformed.

Local Open Scope string_scope.

Example C08_example :
  let abc := list_ascii_of_string "abc" in
  NoDup abc /\
  map string_of_list_ascii
    (issued (snd (run abc [CNext 1; CRefresh; CNext 2; CNext 0; CNext 0; CNext 7]
                      (reset abc (Some 2) (Some 2)))))
  = ["ac"; "abc"; "ab"; "bc"].
Proof.
  split; [|vm_compute; reflexivity].
  repeat constructor; simpl; intuition discriminate.
Qed.

(** Ids are not unique across a reset: the first id after two resets can be the same. *)
Theorem C08_across_reset_refuted :
  exists (s1 s2 : list ccall) (x : id),
    In x (issued (snd (run default_alphanum s1 (reset default_alphanum None (Some 1))))) /\
    In x (issued (snd (run default_alphanum s2 (reset default_alphanum None (Some 1))))).
Proof.
  exists [CNext 0], [CNext 0], (list_ascii_of_string "q0a1").
  vm_compute. split; left; reflexivity.
Qed.
Print Assumptions C08_across_reset_refuted.

(** C09: [next] fails only with [ValueError], and exactly when all combinations of at least the
    start length have been issued; until then it succeeds. *)
Theorem C09_exhaustion :
  forall (alphanum : list ascii) (s : list ccall) (len bat : option nat) (pick : nat),
    NoDup alphanum ->
    let st := run alphanum s (reset alphanum len bat) in
    let total := ids_available (List.length alphanum) (or_default len 4) in
    List.length (issued (snd st)) <= total /\
    (forall e, snd (next alphanum pick (fst st)) = Err e ->
       e = ValueError /\ List.length (issued (snd st)) = total) /\
    (List.length (issued (snd st)) = total ->
       snd (next alphanum pick (fst st)) = Err ValueError).
Proof. exact (fun alpha s len bat pick H => exhaustion_lemma alpha H s len bat pick). Qed.
Print Assumptions C09_exhaustion.

Example C09_example :
  let ab := list_ascii_of_string "ab" in
  ids_available 2 1 = 3 /\
  snd (run ab [CNext 0; CNext 0; CNext 0; CNext 0; CNext 0] (reset ab (Some 1) (Some 2)))
  = [Ok (list_ascii_of_string "a"); Ok (list_ascii_of_string "b"); Ok (list_ascii_of_string "ab");
     Err ValueError; Err ValueError].
Proof. vm_compute. split; reflexivity. Qed.

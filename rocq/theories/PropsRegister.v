(** Properties C01 to C07: registers. *)
From Coq Require Import List ZArith String Bool Arith Lia.
From Verif Require Import Py RegisterModel RegisterSpec RegisterProofs RegisterProofs2.
Import ListNotations.
Local Open Scope string_scope.
Local Open Scope list_scope.
Local Open Scope Z_scope.

(** C01: a register built from any items and put through any calls gives, call by call, the answers
    (values and exceptions) of a duplicate-free list put through the same calls. *)
Theorem C01_register_is_list :
  forall (numeq : item -> Z -> bool), plain numeq ->
  forall (vs : list item) (os : list rop),
    match init_list numeq vs with
    | Ok r0 =>
        let l0 := fst (spec_extend [] vs true) in
        snd (spec_extend [] vs true) = Ok tt /\
        (keys_known l0 os ->
         snd (impl_run numeq r0 os) = snd (spec_run l0 os) /\
         items (fst (impl_run numeq r0 os)) = Ok (fst (spec_run l0 os)) /\
         NoDup (fst (spec_run l0 os)))
    | Err e => snd (spec_extend [] vs true) = Err e
    end.
Proof. exact C01_main. Qed.
Print Assumptions C01_register_is_list.

Theorem C01_range_register_is_list :
  forall (numeq : item -> Z -> bool), plain numeq ->
  forall (n : nat) (os : list rop),
    ssize_ok (zn n) = true ->
    let l0 := map (fun i => IInt (zn i)) (seq 0 n) in
    keys_known l0 os ->
    snd (impl_run numeq (init_range n) os) = snd (spec_run l0 os) /\
    items (fst (impl_run numeq (init_range n) os)) = Ok (fst (spec_run l0 os)) /\
    NoDup (fst (spec_run l0 os)).
Proof. exact C01_range_main. Qed.
Print Assumptions C01_range_register_is_list.

Example plain_eq_plain : plain plain_eq.
Proof. intros v z H. unfold plain_eq in H. destruct (item_eqb_spec v (IInt z)); congruence. Qed.

(** Labels that are integers out of place, a swap through relabel, a removal in the middle. *)
Definition history : list rop :=
  [RAppend (IInt 0) false; RRelabel [(IStr "a", IInt 0); (IInt 0, IStr "a")];
   RAppend INone false; RRemove (IInt 5); RIndex (IInt 0) false; RAt (-1); RPop; RAppend (IStr "a") false;
   RIter].

Example C01_example :
  keys_known (fst (spec_extend [] [IStr "a"; IInt 5] true)) history /\
  match init_list plain_eq [IStr "a"; IInt 5] with
  | Ok r0 => snd (impl_run plain_eq r0 history)
  | Err _ => []
  end =
  [Ok (OItem (IInt 0)); Ok OUnit; Ok (OItem (IInt 3)); Ok OUnit; Ok (OInt 0); Ok (OItem (IInt 3));
   Ok (OItem (IInt 3)); Err ValueError; Ok (OItems [IInt 0; IStr "a"])].
Proof.
  split; [|vm_compute; reflexivity]. vm_compute.
  repeat split; try (repeat constructor; simpl; intuition discriminate).
  all: intros k [<-|[<-|[]]]; auto 10.
Qed.

(** A bit that holds the value equal to the position it would get is not stored: the register yields
    the integer instead of the bit, and does not contain the bit. *)
Theorem C01_bit_equal_to_index_refuted :
  exists (numeq : item -> Z -> bool) (b : item) (r : cyreg),
    init_list numeq [b] = Ok r /\ count r b = Ok false /\ items r = Ok [IInt 0] /\
    fst (spec_extend [] [b] true) = [b].
Proof.
  exists (fun v z => match v with IBit 7 => Z.eqb z 0 | _ => false end), (IBit 7), (mkReg [] [] 1).
  vm_compute. auto.
Qed.
Print Assumptions C01_bit_equal_to_index_refuted.

(** C02 *)
Theorem C02_index_inverse :
  forall (numeq : item -> Z -> bool), plain numeq ->
  forall (r : cyreg), reachable numeq r ->
    (forall i v, getitem r i = Ok v ->
       index numeq r v false = (r, Ok (if i <? 0 then i + zn (stop r) else i))) /\
    (forall v i, snd (index numeq r v false) = Ok i -> getitem r i = Ok v /\ 0 <= i < zn (stop r)) /\
    (forall v, ask_exn v = None -> count r v = Ok false ->
       index numeq r v false = (r, Err ValueError)) /\
    (forall i, ssize_ok i = true -> ~ (- zn (stop r) <= i < zn (stop r)) ->
       getitem r i = Err IndexError) /\
    (forall i, - zn (stop r) <= i < zn (stop r) -> exists v, getitem r i = Ok v).
Proof. exact C02_main. Qed.
Print Assumptions C02_index_inverse.

Example C02_example :
  exists r, reachable plain_eq r /\ items r = Ok [IQubit 4; IInt 0; IStr "x"] /\
    snd (index plain_eq r (IInt 0) false) = Ok 1.
Proof.
  exists (fst (impl_run plain_eq (mkReg [] [] 0)
     [RExtend [IQubit 4; IInt 0] false; RAppend (IStr "x") false])).
  split; [|vm_compute; auto].
  exists [], (mkReg [] [] 0), [RExtend [IQubit 4; IInt 0] false; RAppend (IStr "x") false].
  split; [reflexivity|]. split; [|reflexivity]. vm_compute. auto.
Qed.

(** C03 *)
Theorem C03_add :
  forall (numeq : item -> Z -> bool), plain numeq ->
  forall (r : register) (l vs : list item),
    reachable numeq (core r) -> items (core r) = Ok l ->
    (frozen r = Ok true -> add numeq r vs = (r, Err RegisterError)) /\
    (frozen r = Ok false ->
       (exists ext, items (core (fst (add numeq r vs))) = Ok (l ++ ext) /\ NoDup (l ++ ext)) /\
       (Forall storable vs -> ssize_ok (zn (List.length l + List.length vs)) = true ->
        (NoDup (l ++ vs) ->
           exists r', add numeq r vs = (r', Ok tt) /\ items (core r') = Ok (l ++ vs)
                      /\ frozen r' = Ok false) /\
        (forall pre v post, vs = pre ++ v :: post -> NoDup (l ++ pre) -> In v (l ++ pre) ->
           exists r', add numeq r vs = (r', Err ValueError) /\ items (core r') = Ok (l ++ pre)))).
Proof. exact C03_main. Qed.
Print Assumptions C03_add.

Example C03_example :
  exists r, reachable plain_eq (core r) /\ frozen r = Ok false /\
    snd (add plain_eq r [IQubit 3; IQubit 1; IQubit 5]) = Err ValueError /\
    items (core (fst (add plain_eq r [IQubit 3; IQubit 1; IQubit 5])))
      = Ok [IQubit 1; IQubit 2; IQubit 3].
Proof.
  destruct (new_register plain_eq [IQubit 1; IQubit 2]) as [r|e] eqn:E; [|vm_compute in E; discriminate].
  exists r. vm_compute in E. injection E as <-. split; [|vm_compute; auto].
  eexists [IQubit 1; IQubit 2], _, []. split; [vm_compute; reflexivity|]. split; [exact I|reflexivity].
Qed.

(** C04: slices with non-negative bounds within the register and a positive step. *)
Theorem C04_slice_partial :
  forall (numeq : item -> Z -> bool), plain numeq ->
  forall (r : cyreg) (l : list item) (start stop' step : option Z),
    reachable numeq r -> items r = Ok l -> ~ In INone l ->
    nonneg start -> nonneg stop' ->
    match stop' with Some z => z <= zn (List.length l) | None => True end ->
    match step with Some z => 0 < z < 2 ^ 63 | None => True end ->
    exists r' l', slice numeq r start stop' step = Ok r' /\ items r' = Ok l' /\
      spec_slice l start stop' step = Ok l'.
Proof. exact C04_main. Qed.
Print Assumptions C04_slice_partial.

Definition abcd : cyreg :=
  match init_list plain_eq [IStr "a"; IStr "b"; IStr "c"; IStr "d"] with
  | Ok r => r | Err _ => empty_reg end.

Example abcd_reachable : reachable plain_eq abcd.
Proof. exists [IStr "a"; IStr "b"; IStr "c"; IStr "d"], abcd, []. split; [reflexivity|]. split; [exact I|reflexivity]. Qed.

Example C04_example :
  match slice plain_eq abcd (Some 1) None (Some 2) with Ok r => items r | Err e => Err e end
  = Ok [IStr "b"; IStr "d"] /\
  spec_slice [IStr "a"; IStr "b"; IStr "c"; IStr "d"] (Some 1) None (Some 2) = Ok [IStr "b"; IStr "d"].
Proof. vm_compute. auto. Qed.

(** Negative bounds, a stop beyond the end and negative steps do not follow list slices. *)
Theorem C04_slice_refuted :
  exists (r : cyreg) (l : list item),
    reachable plain_eq r /\ items r = Ok l /\
    (* r[:-1] is empty *)
    (match slice plain_eq r None (Some (-1)) None with Ok r' => items r' | Err e => Err e end = Ok [] /\
     spec_slice l None (Some (-1)) None = Ok [IStr "a"; IStr "b"; IStr "c"]) /\
    (* r[-2:] raises ValueError *)
    (slice plain_eq r (Some (-2)) None None = Err ValueError /\
     spec_slice l (Some (-2)) None None = Ok [IStr "c"; IStr "d"]) /\
    (* r[1:9] raises IndexError *)
    (slice plain_eq r (Some 1) (Some 9) None = Err IndexError /\
     spec_slice l (Some 1) (Some 9) None = Ok [IStr "b"; IStr "c"; IStr "d"]) /\
    (* r[::-1] is empty *)
    (match slice plain_eq r None None (Some (-1)) with Ok r' => items r' | Err e => Err e end = Ok [] /\
     spec_slice l None None (Some (-1)) = Ok [IStr "d"; IStr "c"; IStr "b"; IStr "a"]).
Proof.
  exists abcd, [IStr "a"; IStr "b"; IStr "c"; IStr "d"].
  split; [exact abcd_reachable|]. vm_compute. auto 10.
Qed.
Print Assumptions C04_slice_refuted.

(** C05 *)
Theorem C05_relabel :
  forall (numeq : item -> Z -> bool), plain numeq ->
  forall (r : cyreg) (l : list item) (m : list (item * item)),
    reachable numeq r -> items r = Ok l ->
    NoDup (map fst m) -> (forall k, In k (map fst m) -> In k l) ->
    NoDup (map snd m) -> (forall v, In v (map snd m) -> hashable v = true /\ ask_exn v = None) ->
    (forall v, In v (map snd m) -> In v l -> In v (map fst m)) ->
    exists r1 r2,
      relabel numeq r m = (r1, Ok tt) /\ items r1 = Ok (map (subst m) l) /\
      relabel numeq r1 (swap_pairs m) = (r2, Ok tt) /\ items r2 = Ok l.
Proof. exact C05_main. Qed.
Print Assumptions C05_relabel.

(** A mapping to a name in use, to one name twice or to an unhashable name is refused and the
    register stays as it is. *)
Theorem C05_relabel_rejects :
  forall (numeq : item -> Z -> bool), plain numeq ->
  forall (r : cyreg) (l : list item) (m : list (item * item)),
    reachable numeq r -> items r = Ok l ->
    NoDup (map fst m) -> (forall k, In k (map fst m) -> In k l) ->
    (exists v, In v (map snd m) /\ In v l /\ ~ In v (map fst m)) \/ ~ NoDup (map snd m) \/
    (exists v, In v (map snd m) /\ hashable v = false) ->
    exists e, relabel numeq r m = (r, Err e).
Proof. exact C05_reject_main. Qed.
Print Assumptions C05_relabel_rejects.

Theorem C05_relabel_as_integers :
  forall (numeq : item -> Z -> bool), plain numeq ->
  forall (r : cyreg) (l : list item),
    reachable numeq r -> items r = Ok l ->
    let (r1, m) := relabel_as_integers r in
    items r1 = Ok (map (fun i => IInt (zn i)) (seq 0 (List.length l))) /\
    exists r2, relabel numeq r1 m = (r2, Ok tt) /\ items r2 = Ok l.
Proof. exact C05_ints_main. Qed.
Print Assumptions C05_relabel_as_integers.

(** A three-cycle of labels together with an integer label out of place. *)
Example C05_example :
  let m := [(IStr "a", IStr "b"); (IStr "b", IInt 0); (IStr "c", IStr "a")] in
  (let (r1, o) := relabel plain_eq abcd m in (items r1, o))
  = (Ok [IStr "b"; IInt 0; IStr "a"; IStr "d"], Ok tt).
Proof. vm_compute. reflexivity. Qed.

(** A key that is not in the register is accepted and leaves the register inconsistent: it then
    claims to contain an item that iteration does not show. *)
Theorem C05_unknown_key_refuted :
  exists (r r' : cyreg) (m : list (item * item)) (v : item) (l : list item),
    reachable plain_eq r /\ relabel plain_eq r m = (r', Ok tt) /\
    count r' v = Ok true /\ items r' = Ok l /\ ~ In v l.
Proof.
  exists abcd, (fst (relabel plain_eq abcd [(IStr "z", IStr "w")])), [(IStr "z", IStr "w")],
    (IStr "w"), [IStr "a"; IStr "b"; IStr "c"; IStr "d"].
  split; [exact abcd_reachable|]. vm_compute.
  repeat split; auto. intuition discriminate.
Qed.
Print Assumptions C05_unknown_key_refuted.

(** C06 *)
Theorem C06_concat :
  forall (numeq : item -> Z -> bool), plain numeq ->
  forall (a b : register) (la lb : list item),
    reachable numeq (core a) -> reachable numeq (core b) ->
    items (core a) = Ok la -> items (core b) = Ok lb -> ~ In INone lb ->
    ssize_ok (zn (List.length la + List.length lb)) = true ->
    ((forall x, In x la -> ~ In x lb) ->
       exists c, register_add numeq a b = Ok c /\ items (core c) = Ok (la ++ lb)) /\
    ((exists x, In x la /\ In x lb) -> register_add numeq a b = Err ValueError).
Proof. exact C06_main. Qed.
Print Assumptions C06_concat.

Example C06_example :
  exists a b c, new_register plain_eq [IQubit 1; IQubit 2] = Ok a /\
    new_register plain_eq [IQubit 3] = Ok b /\
    register_add plain_eq a b = Ok c /\ items (core c) = Ok [IQubit 1; IQubit 2; IQubit 3] /\
    register_add plain_eq a a = Err ValueError.
Proof. do 3 eexists. repeat split; vm_compute; reflexivity. Qed.

(** The sum of two registers, and every copy, lacks the frozen flag: adding to it raises
    AttributeError. *)
Theorem C06_result_usable_refuted :
  exists (a b c : register) (v : item),
    new_register plain_eq [IQubit 1] = Ok a /\ new_register plain_eq [IQubit 2] = Ok b /\
    register_add plain_eq a b = Ok c /\ storable v /\
    frozen c = Err AttributeError /\ add plain_eq c [v] = (c, Err AttributeError).
Proof.
  do 3 eexists. exists (IQubit 3). repeat split; try (vm_compute; reflexivity); discriminate.
Qed.
Print Assumptions C06_result_usable_refuted.

Theorem C06_result_never_usable :
  forall numeq (a b c : register) (vs : list item),
    register_add numeq a b = Ok c -> add numeq c vs = (c, Err AttributeError).
Proof.
  exact (fun numeq a b c vs => register_add_unusable numeq a b c vs).
Qed.
Print Assumptions C06_result_never_usable.

(** C07: any sequence of accesses to a fresh parameter register. *)
Theorem C07_self_incrementing :
  forall (numeq : item -> Z -> bool), plain numeq ->
  forall (ks : list nat),
    (forall k, In k ks -> ssize_ok (zn (S k)) = true) ->
    exists r0 r1,
      new_register numeq [] = Ok r0 /\
      si_accesses numeq r0 ks = (r1, map (fun k => Ok (IVar (py_str k))) ks) /\
      items (core r1) = Ok (map (fun k => IVar (py_str k))
                                (seq 0 (fold_right (fun k m => Nat.max (S k) m) 0%nat ks))) /\
      (forall a b, py_str a = py_str b -> a = b) /\
      (forall k, ssize_ok (zn k) = true ->
         si_getitem numeq (freeze r1) (zn k) =
         (freeze r1, if (k <? fold_right (fun k m => Nat.max (S k) m) 0 ks)%nat
                     then Ok (IVar (py_str k)) else Err IndexError)).
Proof. exact C07_main. Qed.
Print Assumptions C07_self_incrementing.

Example C07_example :
  match new_register plain_eq [] with
  | Ok r0 => let (r1, xs) := si_accesses plain_eq r0 [2; 0; 11; 2]%nat in (xs, stop (core r1))
  | Err _ => ([], O)
  end = ([Ok (IVar "2"); Ok (IVar "0"); Ok (IVar "11"); Ok (IVar "2")], 12%nat).
Proof. vm_compute. reflexivity. Qed.

(** With variables of one's own in the register, growing can fail on a name clash. *)
Theorem C07_own_variables_refuted :
  exists (r : register) (i : Z),
    new_register plain_eq [IVar "1"] = Ok r /\ snd (si_getitem plain_eq r i) = Err ValueError.
Proof.
  exists (mkRegister (mkReg [(IInt 0, IVar "1")] [(IVar "1", IInt 0)] 1) (Some false)), 1.
  split; vm_compute; reflexivity.
Qed.
Print Assumptions C07_own_variables_refuted.

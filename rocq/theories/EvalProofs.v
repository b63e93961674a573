(** Proofs about evaluating parametric circuits on a copy and in place. *)
From Coq Require Import List Bool Arith Lia.
From Verif Require Import Py RegisterModel WorldModel WorldInv EvalModel EvalSpec.
Import ListNotations.

Section Proofs.
Variable P : Type.
Variable ptrue : P -> bool.
Notation world := (world P).
Notation opobj := (opobj P).
Notation "'let!' x ':=' m 'in' k" := (mbind m (fun x => k)) (at level 200, x pattern, right associativity).
Notation "m ';;' k" := (mbind m (fun _ => k)) (at level 199, right associativity).

(** The argument of [op_eval] for position [i] *)
Definition row (given : list (list P)) (i : nat) : res (option (list P)) :=
  match given with
  | [] => Ok None
  | _ => match nth_error given i with Some l => Ok (Some l) | None => Err IndexError end
  end.

Lemma row_spec given i g : row given i = Ok g ->
  (given = [] /\ g = None) \/ exists l, g = Some l /\ nth_error given i = Some l.
Proof.
  unfold row. destruct given as [|a t]; [intros [= <-]; auto|]. destruct (nth_error (a :: t) i) as [l|]; [|discriminate].
  intros [= <-]. right. eauto.
Qed.
Lemma row_ok given i : (exists g, row given i = Ok g) <-> (given = [] \/ i < List.length given).
Proof.
  unfold row. split.
  - destruct given as [|a t]; [auto|]. intros [g H]. right. apply nth_error_Some. intros E. rewrite E in H. discriminate.
  - intros [->|H]; [eauto|]. destruct given as [|a t]; [eauto|]. apply nth_error_Some in H.
    destruct (nth_error (a :: t) i); [eauto|congruence].
Qed.

(** What [eval_loop] takes for one variable *)
Definition taken (w : world) (g : option (list P)) (j v : nat) : res P :=
  match g with
  | Some ((_ :: _) as l) => match nth_error l j with Some p => Ok p | None => Err IndexError end
  | _ => match var_value w v with
         | Some p => if ptrue p then Ok p else Err ValueError
         | None => Err ValueError
         end
  end.

Lemma taken_bound w given i g j v q : row given i = Ok g -> (taken w g j v = Ok q <-> bound P ptrue w given i j (PVar v) q).
Proof.
  intros Hg. apply row_spec in Hg. unfold taken, var_value. split.
  - intros H. destruct Hg as [[-> ->]|(l & -> & Hl)].
    + destruct (nth_error (w_var w) v) as [[s [x|]]|] eqn:E; try discriminate. destruct (ptrue x) eqn:T; [|discriminate].
      injection H as <-. eapply bound_value; eauto.
    + destruct l as [|a t].
      * destruct (nth_error (w_var w) v) as [[s [x|]]|] eqn:E; try discriminate. destruct (ptrue x) eqn:T; [|discriminate].
        injection H as <-. eapply bound_value; eauto.
      * destruct (nth_error (a :: t) j) eqn:E; [|discriminate]. injection H as <-. eapply bound_given; eauto.
  - intros H. remember (PVar v) as pv eqn:Ep. destruct H as [x|v' l x H1 H2|v' s x H1 H2 H3]; [discriminate| |]; injection Ep as ->.
    + destruct Hg as [[-> ->]|(l' & -> & Hl)]; [destruct i; discriminate|]. rewrite H1 in Hl. injection Hl as <-.
      destruct l; [destruct j; discriminate|]. now rewrite H2.
    + assert (Hs : match (Some x : option P) with Some p => if ptrue p then Ok p else Err ValueError | None => Err ValueError end = Ok x)
        by now rewrite H3.
      destruct Hg as [[-> ->]|(l' & -> & Hl)]; rewrite H2; [exact Hs|].
      destruct H1 as [->|H1]; [destruct i; discriminate|]. rewrite Hl in H1. injection H1 as ->. exact Hs.
Qed.

Lemma eval_loop_cons w j g p ps :
  eval_loop ptrue w j g (p :: ps) =
  match (match p with PNum x => Ok x | PVar v => taken w g j v end) with
  | Ok x => let (r, o) := eval_loop ptrue w (S j) g ps in (PNum x :: r, o)
  | Err e => (p :: ps, Err e)
  end.
Proof. destruct p as [x|v]; reflexivity. Qed.

Lemma eval_loop_ok w given i g : row given i = Ok g -> forall ps j rs,
  eval_loop ptrue w j g ps = (rs, Ok tt) <->
  (List.length rs = List.length ps /\
   forall n p, nth_error ps n = Some p -> exists q, bound P ptrue w given i (j + n) p q /\ nth_error rs n = Some (PNum q)).
Proof.
  intros Hg. induction ps as [|p ps IH]; intros j rs.
  - cbn. split; [intros [= <-]; split; [reflexivity|intros [|n] p; discriminate]|].
    intros [H _]. destruct rs; [reflexivity|discriminate].
  - rewrite eval_loop_cons.
    assert (Hp : forall q, (match p with PNum x => Ok x | PVar v => taken w g j v end) = Ok q <-> bound P ptrue w given i j p q).
    { intros q. destruct p as [x|v]; [|now apply taken_bound]. split; [intros [= ->]; constructor|inversion 1; reflexivity]. }
    destruct (match p with PNum x => Ok x | PVar v => taken w g j v end) as [x|e].
    + destruct (eval_loop ptrue w (S j) g ps) as [r o] eqn:E. split.
      * intros [= <- ->]. destruct (proj1 (IH (S j) r) E) as [Hl Hn]. split; [cbn; lia|].
        intros [|n] p' Hp'; cbn in Hp' |- *.
        -- injection Hp' as <-. exists x. rewrite Nat.add_0_r. split; [apply Hp; reflexivity|reflexivity].
        -- destruct (Hn n p' Hp') as (q & Hq & Hr). exists q. rewrite Nat.add_succ_r. auto.
      * intros [Hl Hn]. destruct rs as [|r0 rs]; [discriminate|]. cbn in Hl.
        assert (E' : eval_loop ptrue w (S j) g ps = (rs, Ok tt)).
        { apply IH. split; [lia|]. intros n p' Hp'. destruct (Hn (S n) p' Hp') as (q & Hq & Hr). exists q.
          rewrite Nat.add_succ_r in Hq. auto. }
        rewrite E in E'. injection E' as -> ->. destruct (Hn 0 p eq_refl) as (q & Hq & Hr). cbn in Hr. injection Hr as ->.
        rewrite Nat.add_0_r in Hq. apply Hp in Hq. injection Hq as ->. reflexivity.
    + split; [discriminate|]. intros [_ Hn]. destruct (Hn 0 p eq_refl) as (q & Hq & _). rewrite Nat.add_0_r in Hq.
      apply Hp in Hq. discriminate.
Qed.

Lemma eval_loop_can w given i g : row given i = Ok g -> forall ps j,
  (exists rs, eval_loop ptrue w j g ps = (rs, Ok tt)) <->
  (forall n p, nth_error ps n = Some p -> exists q, bound P ptrue w given i (j + n) p q).
Proof.
  intros Hg ps j. split.
  - intros [rs H] n p Hn. apply (eval_loop_ok w given i g Hg) in H. destruct (proj2 H n p Hn) as (q & Hq & _). eauto.
  - revert j. induction ps as [|p ps IH]; intros j H; [exists []; reflexivity|]. rewrite eval_loop_cons.
    destruct (H 0 p eq_refl) as [q Hq]. rewrite Nat.add_0_r in Hq.
    destruct (IH (S j)) as [rs Hrs]. { intros n p' Hn. destruct (H (S n) p' Hn) as [q' Hq']. rewrite Nat.add_succ_r in Hq'. eauto. }
    rewrite Hrs.
    replace (match p with PNum x => Ok x | PVar v => taken w g j v end) with (Ok q); [eauto|].
    destruct p as [x|v]; [inversion Hq; reflexivity|]. symmetry. now apply (taken_bound w given i).
Qed.

Lemma op_eval_copy_ok w given i g x y : row given i = Ok g ->
  (op_eval_copy P ptrue w g x = Ok y <-> evaluated P ptrue w given i x y).
Proof.
  intros Hg. unfold op_eval_copy. destruct (eval_loop ptrue w 0 g (o_params x)) as [ps [[]|e]] eqn:E.
  - destruct (proj1 (eval_loop_ok w given i g Hg _ _ _) E) as [Hl Hn]. split.
    + intros [= <-]. split; [repeat split|]. split; [exact Hl|]. exact Hn.
    + intros (Hs & Hl' & Hn'). f_equal. destruct Hs as (H1 & H2 & H3 & H4 & H5 & H6 & H7).
      assert (E' : eval_loop ptrue w 0 g (o_params x) = (o_params y, Ok tt)) by (apply (eval_loop_ok w given i g Hg); auto).
      rewrite E in E'. injection E' as ->. destruct x, y. cbn in *. unfold with_oparams. cbn. congruence.
  - split; [discriminate|]. intros (_ & Hl' & Hn').
    assert (E' : eval_loop ptrue w 0 g (o_params x) = (o_params y, Ok tt)) by (apply (eval_loop_ok w given i g Hg); auto).
    rewrite E in E'. discriminate.
Qed.

Lemma has_params_kind k : has_params k = true <-> (k = KParam \/ k = KParCtrl).
Proof. destruct k; cbn; split; intuition congruence. Qed.

(** ** The copy *)
Lemma copy_ops_cons w i given o os :
  copy_ops P ptrue w i given (o :: os) =
  (let? g := row given i in
   match nth_error (w_op w) o with
   | None => Err Undefined
   | Some x =>
       match nth_error (w_cls w) (o_cls x) with
       | None => Err Undefined
       | Some k =>
           let? z := (if has_params (k_kind k)
                      then let? y := op_eval_copy P ptrue w g x in Ok (mkCopied P y (Own i))
                      else Ok (mkCopied P x Common)) in
           let? zs := copy_ops P ptrue w (S i) given os in
           Ok (z :: zs)
       end
   end).
Proof. reflexivity. Qed.

(** What one entry of the copied circuit is *)
Definition entry (w : world) (given : list (list P)) (i : nat) (x : opobj) (z : copied P) : Prop :=
  (parametric P w x -> evaluated P ptrue w given i x (cp_op P z) /\ cp_bits P z = Own i) /\
  (~ parametric P w x -> cp_op P z = x /\ cp_bits P z = Common).

Lemma parametric_kind w (x : opobj) k : nth_error (w_cls w) (o_cls x) = Some k ->
  (parametric P w x <-> has_params (k_kind k) = true).
Proof.
  intros Hk. rewrite has_params_kind. unfold parametric. split; [intros (k' & Hk' & H)|intros H; eauto].
  rewrite Hk in Hk'. injection Hk' as <-. exact H.
Qed.

Lemma copy_ops_ok w given : forall os i zs, copy_ops P ptrue w i given os = Ok zs ->
  List.length zs = List.length os /\
  forall n o, nth_error os n = Some o -> exists x z,
    nth_error (w_op w) o = Some x /\ nth_error zs n = Some z /\ entry w given (i + n) x z.
Proof.
  induction os as [|o os IH]; intros i zs H.
  - injection H as <-. split; [reflexivity|]. intros [|n] o; discriminate.
  - rewrite copy_ops_cons in H. destruct (row given i) as [g|] eqn:Hg; [|discriminate]. cbn in H.
    destruct (nth_error (w_op w) o) as [x|] eqn:Hx; [|discriminate].
    destruct (nth_error (w_cls w) (o_cls x)) as [k|] eqn:Hk; [|discriminate].
    pose proof (parametric_kind w x k Hk) as Hp.
    destruct (has_params (k_kind k)) eqn:Hh.
    + destruct (op_eval_copy P ptrue w g x) as [y|] eqn:Hy; [|discriminate]. cbn in H.
      destruct (copy_ops P ptrue w (S i) given os) as [zs'|] eqn:Hz; [|discriminate]. injection H as <-.
      destruct (IH _ _ Hz) as [Hl Hn]. split; [cbn; lia|]. intros [|n] o' Ho; cbn in Ho |- *.
      * injection Ho as <-. exists x, (mkCopied P y (Own i)). rewrite Nat.add_0_r. split; [exact Hx|]. split; [reflexivity|].
        split; cbn; [|intros Hnp; tauto]. intros _. split; [|reflexivity]. now apply (op_eval_copy_ok w given i g).
      * rewrite Nat.add_succ_r. exact (Hn n o' Ho).
    + cbn in H. destruct (copy_ops P ptrue w (S i) given os) as [zs'|] eqn:Hz; [|discriminate]. injection H as <-.
      destruct (IH _ _ Hz) as [Hl Hn]. split; [cbn; lia|]. intros [|n] o' Ho; cbn in Ho |- *.
      * injection Ho as <-. exists x, (mkCopied P x Common). rewrite Nat.add_0_r. split; [exact Hx|]. split; [reflexivity|].
        split; [|auto]. intros Hpp. apply Hp in Hpp. discriminate.
      * rewrite Nat.add_succ_r. exact (Hn n o' Ho).
Qed.

Lemma copy_ops_can w given : forall os i,
  (exists zs, copy_ops P ptrue w i given os = Ok zs) <->
  (forall n o, nth_error os n = Some o -> exists x k, nth_error (w_op w) o = Some x /\
     nth_error (w_cls w) (o_cls x) = Some k /\ can_bind P ptrue w given (i + n) x).
Proof.
  induction os as [|o os IH]; intros i.
  - split; [intros _ [|n] o; discriminate|intros _; exists []; reflexivity].
  - rewrite copy_ops_cons. split.
    + intros [zs H]. destruct (row given i) as [g|] eqn:Hg; [|discriminate]. cbn in H.
      destruct (nth_error (w_op w) o) as [x|] eqn:Hx; [|discriminate].
      destruct (nth_error (w_cls w) (o_cls x)) as [k|] eqn:Hk; [|discriminate].
      pose proof (parametric_kind w x k Hk) as Hp.
      destruct (match has_params (k_kind k) with true => _ | false => _ end) as [z|] eqn:Hz0 in H; [|discriminate]. cbn in H.
      destruct (copy_ops P ptrue w (S i) given os) as [zs'|] eqn:Hz; [|discriminate].
      intros [|n] o' Ho; cbn in Ho.
      * injection Ho as <-. exists x, k. split; [exact Hx|]. split; [exact Hk|]. rewrite Nat.add_0_r. split; [apply row_ok; eauto|].
        intros Hpp. apply Hp in Hpp. rewrite Hpp in Hz0. destruct (op_eval_copy P ptrue w g x) as [y|] eqn:Hy; [|discriminate].
        apply (op_eval_copy_ok w given i g x y Hg) in Hy. intros j p Hj. destruct (proj2 (proj2 Hy) j p Hj) as (q & Hq & _). eauto.
      * rewrite Nat.add_succ_r. apply (proj1 (IH (S i)) (ex_intro _ _ Hz) n o' Ho).
    + intros H. destruct (H 0 o eq_refl) as (x & k & Hx & Hk & Hr & Hb). rewrite Nat.add_0_r in Hr, Hb.
      apply row_ok in Hr. destruct Hr as [g Hg]. rewrite Hg. cbn. rewrite Hx, Hk.
      pose proof (parametric_kind w x k Hk) as Hp.
      destruct (proj2 (IH (S i))) as [zs Hzs].
      { intros n o' Ho. destruct (H (S n) o' Ho) as (x' & k' & Hxk). rewrite Nat.add_succ_r in Hxk. eauto. }
      rewrite Hzs. destruct (has_params (k_kind k)) eqn:Hh; [|cbn; eauto].
      assert (Hpp : parametric P w x) by now apply Hp.
      destruct (proj2 (eval_loop_can w given i g Hg (o_params x) 0)) as [rs Hrs]; [exact (Hb Hpp)|].
      unfold op_eval_copy. rewrite Hrs. cbn. eauto.
Qed.

Lemma eval_copy_ok w c x given zs :
  nth_error (w_circ w) c = Some x -> eval_copy P ptrue w c given = Ok zs ->
  List.length zs = List.length (c_ops x) /\
  forall i o, nth_error (c_ops x) i = Some o -> exists y z,
    nth_error (w_op w) o = Some y /\ nth_error zs i = Some z /\
    (parametric P w y -> evaluated P ptrue w given i y (cp_op P z)) /\ (~ parametric P w y -> cp_op P z = y).
Proof.
  intros Hx H. unfold eval_copy in H. rewrite Hx in H. destruct (c_par x); [|discriminate]. cbn in H.
  destruct (copy_ops_ok w given _ _ _ H) as [Hl Hn]. split; [exact Hl|]. intros i o Ho.
  destruct (Hn i o Ho) as (y & z & Hy & Hz & H1 & H2). exists y, z. split; [exact Hy|]. split; [exact Hz|].
  split; intros Hp; [apply (H1 Hp)|apply (H2 Hp)].
Qed.

Lemma eval_copy_can w c x given :
  nth_error (w_circ w) c = Some x -> c_par x = true ->
  (forall o, In o (c_ops x) -> exists y k, nth_error (w_op w) o = Some y /\ nth_error (w_cls w) (o_cls y) = Some k) ->
  ((exists zs, eval_copy P ptrue w c given = Ok zs) <->
   forall i o y, nth_error (c_ops x) i = Some o -> nth_error (w_op w) o = Some y -> can_bind P ptrue w given i y).
Proof.
  intros Hx Hpar Hw. unfold eval_copy. rewrite Hx, Hpar. cbn. rewrite (copy_ops_can w given (c_ops x) 0). split.
  - intros H i o y Ho Hy. destruct (H i o Ho) as (y' & k & Hy' & _ & Hb). rewrite Hy in Hy'. injection Hy' as <-. exact Hb.
  - intros H i o Ho. destruct (Hw o (nth_error_In _ _ Ho)) as (y & k & Hy & Hk). exists y, k. split; [exact Hy|]. split; [exact Hk|]. apply (H i o y Ho Hy).
Qed.

(** Errors are [IndexError] for a missing row or number and [ValueError] for a variable without a value. *)
Lemma op_eval_again w w' g g' (x y : opobj) : op_eval_copy P ptrue w g x = Ok y -> op_eval_copy P ptrue w' g' y = Ok y.
Proof.
  unfold op_eval_copy. destruct (eval_loop ptrue w 0 g (o_params x)) as [ps [[]|e]] eqn:E; [|discriminate]. intros [= <-].
  assert (Hall : forall qs j, (forall p, In p qs -> exists q : P, p = PNum q) -> eval_loop ptrue w' j g' qs = (qs, Ok tt)).
  { induction qs as [|p qs IH]; intros j H; [reflexivity|]. destruct (H p (or_introl eq_refl)) as [q ->].
    rewrite eval_loop_cons, IH; [reflexivity|]. intros p Hp. apply H. now right. }
  assert (Hnum : forall qs j rs, eval_loop ptrue w j g qs = (rs, Ok tt) -> forall p, In p rs -> exists q : P, p = PNum q).
  { induction qs as [|p qs IH]; intros j rs H; [injection H as <-; intros p []|]. rewrite eval_loop_cons in H.
    destruct (match p with PNum x0 => Ok x0 | PVar v => taken w g j v end) as [q|]; [|discriminate].
    destruct (eval_loop ptrue w (S j) g qs) as [r o] eqn:Er. injection H as <- ->.
    intros p' [<-|Hp]; [eauto|]. eapply IH; eauto. }
  cbn. rewrite (Hall ps 0 (Hnum _ _ _ E)). reflexivity.
Qed.

(** ** In place *)
Definition same_rest (w w' : world) : Prop :=
  w_cls w' = w_cls w /\ w_circ w' = w_circ w /\ w_qubit w' = w_qubit w /\ w_bit w' = w_bit w /\ w_var w' = w_var w /\
  w_ctx w' = w_ctx w /\ w_active w' = w_active w /\ w_exit w' = w_exit w.

Lemma eval_loop_world (w w' : world) g : w_var w' = w_var w -> forall ps j, eval_loop ptrue w' j g ps = eval_loop ptrue w j g ps.
Proof.
  intros Hv. induction ps as [|p ps IH]; intros j; [reflexivity|]. rewrite !eval_loop_cons.
  assert (Ht : forall v, taken w' g j v = taken w g j v) by (intros v; unfold taken, var_value; now rewrite Hv).
  destruct p as [x|v]; [now rewrite IH|]. rewrite Ht. destruct (taken w g j v); [now rewrite IH|reflexivity].
Qed.

Lemma copy_ops_world (w w' : world) given : w_var w' = w_var w -> w_cls w' = w_cls w -> forall os i,
  (forall o, In o os -> nth_error (w_op w') o = nth_error (w_op w) o) ->
  copy_ops P ptrue w' i given os = copy_ops P ptrue w i given os.
Proof.
  intros Hv Hc. induction os as [|o os IH]; intros i H; [reflexivity|]. rewrite !copy_ops_cons.
  rewrite (H o (or_introl eq_refl)), Hc. destruct (row given i) as [g|]; [|reflexivity]. cbn.
  destruct (nth_error (w_op w) o) as [x|]; [|reflexivity]. destruct (nth_error (w_cls w) (o_cls x)) as [k|]; [|reflexivity].
  rewrite IH; [|intros o' Ho; apply H; now right]. unfold op_eval_copy. rewrite (eval_loop_world w w' g Hv). reflexivity.
Qed.

Lemma eval_ops_cons (w : world) i given o os :
  eval_ops ptrue i given (o :: os) w =
  match row given i with
  | Err e => (w, Err e)
  | Ok g =>
      match nth_error (w_op w) o with
      | None => (w, Err Undefined)
      | Some x =>
          match nth_error (w_cls w) (o_cls x) with
          | None => (w, Err Undefined)
          | Some k =>
              if has_params (k_kind k) then
                let r := eval_loop ptrue w 0 g (o_params x) in
                let w1 := set_op w (set_nth o (with_oparams x (fst r)) (w_op w)) in
                match snd r with
                | Ok _ => eval_ops ptrue (S i) given os w1
                | Err e => (w1, Err e)
                end
              else eval_ops ptrue (S i) given os w
          end
      end
  end.
Proof.
  assert (H : forall g, (let! x := get_op o in let! k := get_cls (o_cls x) in
                         when (has_params (k_kind k)) (op_eval ptrue o g) ;; eval_ops ptrue (S i) given os) w =
    match nth_error (w_op w) o with
    | None => (w, Err Undefined)
    | Some x =>
        match nth_error (w_cls w) (o_cls x) with
        | None => (w, Err Undefined)
        | Some k =>
            if has_params (k_kind k) then
              let r := eval_loop ptrue w 0 g (o_params x) in
              let w1 := set_op w (set_nth o (with_oparams x (fst r)) (w_op w)) in
              match snd r with
              | Ok _ => eval_ops ptrue (S i) given os w1
              | Err e => (w1, Err e)
              end
            else eval_ops ptrue (S i) given os w
        end
    end).
  { intros g. unfold mbind, get_op, get_cls, the. destruct (nth_error (w_op w) o) as [x|] eqn:Hx; [|reflexivity].
    unfold ret at 1. destruct (nth_error (w_cls w) (o_cls x)) as [k|]; [|reflexivity]. unfold ret at 1, when.
    destruct (has_params (k_kind k)); [|reflexivity].
    unfold op_eval, mbind, get_op, the, read, put_op, lift. rewrite Hx. cbn.
    destruct (eval_loop ptrue w 0 g (o_params x)) as [ps [[]|e]]; reflexivity. }
  cbn [eval_ops]. unfold row. destruct given as [|a t]; [exact (H None)|].
  destruct (nth_error (a :: t) i) as [l|]; [exact (H (Some l))|reflexivity].
Qed.

Lemma eval_ops_agree given : forall os (w : world) i, NoDup os ->
  match copy_ops P ptrue w i given os with
  | Ok zs => exists w', eval_ops ptrue i given os w = (w', Ok tt) /\ same_rest w w' /\
      (forall o, ~ In o os -> nth_error (w_op w') o = nth_error (w_op w) o) /\
      map (nth_error (w_op w')) os = map (fun z => Some (cp_op P z)) zs
  | Err e => exists w', eval_ops ptrue i given os w = (w', Err e) /\ same_rest w w' /\
      (forall o, ~ In o os -> nth_error (w_op w') o = nth_error (w_op w) o)
  end.
Proof.
  induction os as [|o os IH]; intros w i Hnd.
  - exists w. repeat split; auto.
  - inversion Hnd as [|? ? Hno Hnd']; subst. rewrite copy_ops_cons, eval_ops_cons.
    destruct (row given i) as [g|e]; [|exists w; repeat split; auto]. cbn [bind].
    destruct (nth_error (w_op w) o) as [x|] eqn:Hx; [|exists w; repeat split; auto].
    destruct (nth_error (w_cls w) (o_cls x)) as [k|]; [|exists w; repeat split; auto].
    destruct (has_params (k_kind k)).
    + unfold op_eval_copy. destruct (eval_loop ptrue w 0 g (o_params x)) as [ps [[]|e]]; cbn [fst snd bind].
      * set (w1 := set_op w (set_nth o (with_oparams x ps) (w_op w))).
        assert (Ho1 : forall o', o' <> o -> nth_error (w_op w1) o' = nth_error (w_op w) o').
        { intros o' Hne. unfold w1. cbn. apply set_nth_other. congruence. }
        assert (Hc : copy_ops P ptrue w1 (S i) given os = copy_ops P ptrue w (S i) given os).
        { apply copy_ops_world; try reflexivity. intros o' Ho'. apply Ho1. intros ->. contradiction. }
        specialize (IH w1 (S i) Hnd'). rewrite Hc in IH.
        destruct (copy_ops P ptrue w (S i) given os) as [zs|e]; cbn [bind].
        -- destruct IH as (w' & E & Hs & Ho & Hm). exists w'. split; [exact E|]. split; [exact Hs|]. split.
           ++ intros o' Hn. cbn in Hn. rewrite Ho by tauto. apply Ho1. intros ->. tauto.
           ++ cbn. f_equal; [|exact Hm]. rewrite Ho by exact Hno. unfold w1. cbn. eapply set_nth_same; eauto.
        -- destruct IH as (w' & E & Hs & Ho). exists w'. split; [exact E|]. split; [exact Hs|].
           intros o' Hn. cbn in Hn. rewrite Ho by tauto. apply Ho1. intros ->. tauto.
      * eexists. split; [reflexivity|]. split; [repeat split|]. intros o' Hn. cbn. apply set_nth_other. intros ->. apply Hn. now left.
    + specialize (IH w (S i) Hnd'). cbn [bind]. destruct (copy_ops P ptrue w (S i) given os) as [zs|e]; cbn [bind].
      * destruct IH as (w' & E & Hs & Ho & Hm). exists w'. split; [exact E|]. split; [exact Hs|]. split.
        -- intros o' Hn. apply Ho. cbn in Hn. tauto.
        -- cbn. f_equal; [|exact Hm]. rewrite Ho by exact Hno. exact Hx.
      * destruct IH as (w' & E & Hs & Ho). exists w'. split; [exact E|]. split; [exact Hs|]. intros o' Hn. apply Ho. cbn in Hn. tauto.
Qed.

Lemma eval_agree (w : world) c x given :
  nth_error (w_circ w) c = Some x -> NoDup (c_ops x) ->
  (forall zs, eval_copy P ptrue w c given = Ok zs ->
     exists w', eval_circuit ptrue c given w = (w', Ok tt) /\ same_rest w w' /\
       (forall o, ~ In o (c_ops x) -> nth_error (w_op w') o = nth_error (w_op w) o) /\
       map (nth_error (w_op w')) (c_ops x) = map (fun z => Some (cp_op P z)) zs) /\
  (forall e, eval_copy P ptrue w c given = Err e ->
     exists w', eval_circuit ptrue c given w = (w', Err e) /\ same_rest w w' /\
       (forall o, ~ In o (c_ops x) -> nth_error (w_op w') o = nth_error (w_op w) o)).
Proof.
  intros Hx Hnd.
  assert (E : eval_circuit ptrue c given w = if negb (c_par x) then (w, Err AttributeError) else eval_ops ptrue 0 given (c_ops x) w).
  { unfold eval_circuit, mbind, get_circ, the, raise. rewrite Hx. unfold ret at 1. destruct (c_par x); reflexivity. }
  rewrite E. unfold eval_copy. rewrite Hx. destruct (c_par x); cbn [negb].
  - pose proof (eval_ops_agree given (c_ops x) w 0 Hnd) as H.
    destruct (copy_ops P ptrue w 0 given (c_ops x)) as [zs|e]; split; intros ? [= <-]; exact H.
  - split; [discriminate|]. intros e [= <-]. exists w. repeat split; auto.
Qed.

(** ** Conditions *)
Definition conds (x : opobj) : list item := match o_cond x with Some l => l | None => [] end.
Definition stored (x : opobj) : list item := match o_bits x with Some l => l | None => [] end.

Lemma put_all_other a bs : forall f xs a' b, a' <> a \/ ~ In b bs -> put_all f a bs xs a' b = f a' b.
Proof.
  induction bs as [|b0 bs IH]; intros f xs a' b H; [reflexivity|]. destruct xs as [|x xs]; [reflexivity|]. cbn.
  rewrite IH by (cbn in H; tauto). unfold put_value. destruct (owner_eqb a' a) eqn:Ea; [|reflexivity].
  assert (a' = a). { destruct a', a; cbn in Ea; try discriminate; [reflexivity|]. apply Nat.eqb_eq in Ea. now subst. }
  destruct H as [H|H]; [contradiction|]. unfold item_eqb. destruct (item_eq_dec b b0) as [->|]; [|reflexivity]. destruct H. now left.
Qed.
Lemma put_all_same a bs : forall (f f' : values) xs, (forall b, f a b = f' a b) ->
  forall b, put_all f a bs xs a b = put_all f' a bs xs a b.
Proof.
  induction bs as [|b0 bs IH]; intros f f' xs H b; [apply H|]. destruct xs as [|x xs]; [apply H|]. cbn. apply IH.
  intros b'. unfold put_value. destruct (owner_eqb a a); [|apply H]. destruct (item_eqb b' b0); [reflexivity|apply H].
Qed.

Definition common (z : copied P) : copied P := mkCopied P (cp_op P z) Common.

Lemma applied_same (w : world) out : forall zs i (f f' : values),
  (forall b, f Common b = f' Common b) ->
  (forall z b, In z zs -> In b (conds (cp_op P z)) -> f (cp_bits P z) b = f' Common b) ->
  (forall z, In z zs -> is_measurement P w z = true -> cp_bits P z = Common) ->
  (forall z m b, In z zs -> In m zs -> cp_bits P z <> Common -> is_measurement P w m = true ->
     In b (conds (cp_op P z)) -> ~ In b (stored (cp_op P m))) ->
  applied P w out i f zs = applied P w out i f' (map common zs).
Proof.
  induction zs as [|z zs IH]; intros i f f' Hc Ho Hm Hd; [reflexivity|]. cbn [applied map].
  assert (Hu : unblocked P f z = unblocked P f' (common z)).
  { unfold unblocked. cbn [cp_op cp_bits common]. change (match o_cond (cp_op P z) with Some l => l | None => [] end) with (conds (cp_op P z)).
    assert (Hb : forall b, In b (conds (cp_op P z)) -> f (cp_bits P z) b = f' Common b) by (intros b Hb; apply Ho; [now left|exact Hb]).
    induction (conds (cp_op P z)) as [|b l IHl]; [reflexivity|]. cbn. rewrite (Hb b) by now left. f_equal. apply IHl. intros b' Hb'. apply Hb. now right. }
  rewrite <- Hu. change (is_measurement P w (common z)) with (is_measurement P w z).
  destruct (unblocked P f z).
  - f_equal. destruct (is_measurement P w z) eqn:Ez.
    + cbn [cp_op cp_bits common].
      change (match o_bits (cp_op P z) with Some l => l | None => [] end) with (stored (cp_op P z)).
      rewrite (Hm z (or_introl eq_refl) Ez). apply IH.
      * intros b. apply put_all_same. exact Hc.
      * intros z' b Hz Hb. destruct (cp_bits P z') as [|j] eqn:Ej.
        -- apply put_all_same. exact Hc.
        -- rewrite put_all_other by (left; discriminate). rewrite put_all_other.
           ++ rewrite <- Ej. apply Ho; [now right|exact Hb].
           ++ right. apply (Hd z' z b); [now right|now left|congruence|exact Ez|exact Hb].
      * intros z' Hz. apply Hm. now right.
      * intros z' m b Hz Hm'. apply Hd; now right.
    + apply IH; [exact Hc| | |]; intros z'.
      * intros b Hz. apply Ho. now right.
      * intros Hz. apply Hm. now right.
      * intros m b Hz Hm'. apply Hd; now right.
  - f_equal. apply IH; [exact Hc| | |]; intros z'.
    + intros b Hz. apply Ho. now right.
    + intros Hz. apply Hm. now right.
    + intros m b Hz Hm'. apply Hd; now right.
Qed.

Lemma entry_cls w given i x z : nth_error (w_cls w) (o_cls x) <> None -> entry w given i x z ->
  (o_cls (cp_op P z) = o_cls x /\ o_cond (cp_op P z) = o_cond x /\ o_bits (cp_op P z) = o_bits x) /\
  (cp_bits P z <> Common -> parametric P w x) /\ (cp_bits P z = Common -> ~ parametric P w x).
Proof.
  intros Hk [H1 H2]. destruct (nth_error (w_cls w) (o_cls x)) as [k|] eqn:Ek; [|congruence].
  pose proof (parametric_kind w x k Ek) as Hp. destruct (has_params (k_kind k)).
  - destruct H1 as ((Hs & _) & Hb); [tauto|]. unfold same_but_parameters in Hs. split; [intuition congruence|]. rewrite Hb. split; [tauto|discriminate].
  - destruct H2 as [Hs Hb]; [rewrite Hp; discriminate|]. rewrite Hs, Hb. split; [auto|]. split; [congruence|]. intros _. rewrite Hp. discriminate.
Qed.

Lemma eval_conditions (w w' : world) c x given zs ys out init :
  nth_error (w_circ w) c = Some x -> NoDup (c_ops x) ->
  eval_copy P ptrue w c given = Ok zs -> eval_circuit ptrue c given w = (w', Ok tt) ->
  map (nth_error (w_op w')) (c_ops x) = map Some ys ->
  (forall o y m z k b, In o (c_ops x) -> nth_error (w_op w) o = Some y -> parametric P w y ->
     In m (c_ops x) -> nth_error (w_op w) m = Some z -> nth_error (w_cls w) (o_cls z) = Some k -> k_kind k = KMeas ->
     In b (conds y) -> ~ In b (stored z)) ->
  applied P w out 0 (fun _ => init) zs = applied P w out 0 (fun _ => init) (map (fun y => mkCopied P y Common) ys).
Proof.
  intros Hx Hnd Hcp Hin Hys Hd.
  destruct (proj1 (eval_agree w c x given Hx Hnd) zs Hcp) as (w1 & E & _ & _ & Hm). rewrite Hin in E. injection E as <-.
  rewrite Hys in Hm.
  assert (Hy : ys = map (cp_op P) zs).
  { clear - Hm. revert zs Hm. induction ys as [|y ys IH]; intros [|z zs] H; try discriminate; [reflexivity|]. cbn in H |- *.
    injection H as -> H. f_equal. now apply IH. }
  rewrite Hy, map_map. change (map (fun x0 => mkCopied P (cp_op P x0) Common) zs) with (map common zs).
  unfold eval_copy in Hcp. rewrite Hx in Hcp. destruct (c_par x); [|discriminate]. cbn in Hcp.
  destruct (copy_ops_ok w given _ _ _ Hcp) as [Hl Hn].
  pose proof (proj1 (copy_ops_can w given (c_ops x) 0) (ex_intro _ _ Hcp)) as Hk.
  assert (Hz : forall z, In z zs -> exists o y k, In o (c_ops x) /\ nth_error (w_op w) o = Some y /\
             nth_error (w_cls w) (o_cls y) = Some k /\
             (o_cls (cp_op P z) = o_cls y /\ o_cond (cp_op P z) = o_cond y /\ o_bits (cp_op P z) = o_bits y) /\
  (cp_bits P z <> Common -> parametric P w y) /\ (cp_bits P z = Common -> ~ parametric P w y)).
  { intros z Hz. apply In_nth_error in Hz. destruct Hz as [n Hz].
    destruct (nth_error (c_ops x) n) as [o|] eqn:Eo.
    - destruct (Hn n o Eo) as (y & z' & Hy' & Hz' & He). rewrite Hz in Hz'. injection Hz' as <-.
      destruct (Hk n o Eo) as (y2 & k & Hy2 & Hk2 & _). rewrite Hy' in Hy2. injection Hy2 as <-.
      exists o, y, k. split; [eapply nth_error_In; eauto|]. split; [exact Hy'|]. split; [exact Hk2|].
      eapply entry_cls; [congruence|exact He].
    - apply nth_error_None in Eo. assert (n < List.length zs) by (apply nth_error_Some; congruence). lia. }
  assert (Hmeas : forall z, is_measurement P w z = true -> exists k, nth_error (w_cls w) (o_cls (cp_op P z)) = Some k /\ k_kind k = KMeas).
  { intros z H. unfold is_measurement in H. destruct (nth_error (w_cls w) (o_cls (cp_op P z))) as [k|]; [|discriminate].
    exists k. split; [reflexivity|]. destruct (k_kind k); try discriminate. reflexivity. }
  apply applied_same.
  - reflexivity.
  - reflexivity.
  - intros z Hiz Hz'. destruct (Hz z Hiz) as (o & y & k & Ho & Hy' & Hk' & (Hc1 & _) & Hp1 & Hp2).
    destruct (Hmeas z Hz') as (k2 & Hk2 & Hkm). rewrite Hc1, Hk' in Hk2. injection Hk2 as <-.
    destruct (cp_bits P z) as [|j]; [reflexivity|]. exfalso. destruct Hp1 as (k3 & Hk3 & Hkind); [discriminate|].
    rewrite Hk' in Hk3. injection Hk3 as <-. rewrite Hkm in Hkind. destruct Hkind; discriminate.
  - intros z m b Hiz Him Hzb Hm' Hb. destruct (Hz z Hiz) as (o & y & k & Ho & Hy' & Hk' & (_ & Hc2 & _) & Hp1 & _).
    destruct (Hz m Him) as (o2 & y2 & k2 & Ho2 & Hy2 & Hk2 & (Hm1 & _ & Hm3) & _ & _).
    destruct (Hmeas m Hm') as (k3 & Hk3 & Hkm). rewrite Hm1, Hk2 in Hk3. injection Hk3 as <-.
    unfold stored. rewrite Hm3. unfold conds in Hb. rewrite Hc2 in Hb.
    exact (Hd o y o2 y2 k2 b Ho Hy' (Hp1 Hzb) Ho2 Hy2 Hk2 Hkm Hb).
Qed.
End Proofs.

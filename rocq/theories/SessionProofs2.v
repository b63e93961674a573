(** Programs that simulate do to the heap what programs that set bits do. *)
From Coq Require Import List NArith ZArith Arith String Bool Lia Reals.
From Verif Require Import Py CRing Cplx SimModel SimSpec SimReal StateModel RegisterModel WorldModel WorldSpec WorldInv
  WorldCheck LinkModel SessionModel SessionSpec SessionProofs.
Import ListNotations.
Local Open Scope nat_scope.

(** ** Bits *)
Lemma put_from_nth f bs : forall k i, nth_error (put_from k f bs) i = option_map (fun p => (fst p, f (k + i))) (nth_error bs i).
Proof.
  induction bs as [|[l v] bs IH]; intros k [|i]; cbn; try reflexivity; [now rewrite Nat.add_0_r|]. rewrite IH. now rewrite Nat.add_succ_r.
Qed.
Lemma put_from_labels f bs : forall k, map fst (put_from k f bs) = map fst bs.
Proof. induction bs as [|[l v] bs IH]; intros k; cbn; [reflexivity|]. now rewrite IH. Qed.
Lemma put_from_same f bs : forall k, (forall i l v, nth_error bs i = Some (l, v) -> f (k + i) = v) -> put_from k f bs = bs.
Proof.
  induction bs as [|[l v] bs IH]; intros k H; cbn; [reflexivity|]. rewrite (IH (S k)).
  - pose proof (H 0 l v eq_refl) as E. rewrite Nat.add_0_r in E. now rewrite E.
  - intros i l' v' E. rewrite <- (H (S i) l' v' E). f_equal. lia.
Qed.
Lemma put_value f w b : b < List.length (w_bit w) -> bit_value R (put_bits f w) b = f b.
Proof.
  intros H. unfold bit_value, put_bits. cbn. rewrite put_from_nth. destruct (nth_error (w_bit w) b) as [[l v]|] eqn:E; [reflexivity|].
  apply nth_error_None in E. lia.
Qed.
Lemma put_value_out f w b : List.length (w_bit w) <= b -> bit_value R (put_bits f w) b = None.
Proof. intros H. unfold bit_value, put_bits. cbn. rewrite put_from_nth. apply nth_error_None in H. now rewrite H. Qed.
Lemma put_put f g w : (forall b, b < List.length (w_bit w) -> g b = f b) -> put_bits g (put_bits f w) = put_bits f w.
Proof.
  intros H. unfold put_bits at 1. cbn [put_bits WorldModel.set_bit w_bit]. rewrite (put_from_same g (put_from 0 f (w_bit w)) 0).
  - destruct w; reflexivity.
  - intros i l v E. rewrite put_from_nth in E. destruct (nth_error (w_bit w) i) as [[l' v']|] eqn:E'; [|discriminate].
    cbn in E. injection E as <- <-. apply H. apply nth_error_Some. congruence.
Qed.
Lemma put_same f w : (forall b, b < List.length (w_bit w) -> f b = bit_value R w b) -> put_bits f w = w.
Proof.
  intros H. unfold put_bits. rewrite put_from_same; [destruct w; reflexivity|]. intros i l v E.
  rewrite H by (apply nth_error_Some; cbn; congruence). unfold bit_value. cbn. now rewrite E.
Qed.

Section Refine.
Variable ptrue : R -> bool.
Variable peqb : R -> R -> bool.
Notation run := (run ptrue peqb).
Notation srun := (srun ptrue peqb).

Fixpoint sets_from (k : nat) (f : nat -> option bool) (bs : list (label * option bool)) : prog R :=
  match bs with
  | [] => Skip
  | _ :: bs' => match f k with
                | Some x => Seq (Do (CBitSet R k x true)) (sets_from (S k) f bs')
                | None => sets_from (S k) f bs'
                end
  end.

Lemma sets_run f bs : forall pre (w : world R), w_bit w = (pre ++ bs)%list ->
  (forall i l v, nth_error bs i = Some (l, v) -> v <> None -> f (List.length pre + i) <> None) ->
  run (sets_from (List.length pre) f bs) w = (WorldModel.set_bit w (pre ++ put_from (List.length pre) f bs)%list, Ok tt).
Proof.
  induction bs as [|[l v] bs IH]; intros pre w E H.
  - cbn. rewrite <- E. destruct w; reflexivity.
  - assert (Hr : forall w' v', w_bit w' = (pre ++ (l, v') :: bs)%list -> v' = f (List.length pre) ->
      run (sets_from (S (List.length pre)) f bs) w' = (WorldModel.set_bit w' (pre ++ (l, v') :: put_from (S (List.length pre)) f bs)%list, Ok tt)).
    { intros w' v' Ew' Ev'.
      specialize (IH (pre ++ [(l, v')])%list w'). rewrite app_length, Nat.add_1_r in IH. rewrite <- !app_assoc in IH. cbn [app] in IH.
      apply IH; [exact Ew'|]. intros i l' v0 Ei Hv. replace (S (List.length pre) + i) with (List.length pre + S i) by lia. exact (H (S i) l' v0 Ei Hv). }
    cbn [sets_from put_from]. destruct (f (List.length pre)) as [x|] eqn:Ef.
    + cbn [WorldModel.run do_call]. unfold mbind, bit_set. rewrite E, nth_error_app2, Nat.sub_diag by lia. cbn [nth_error negb].
      assert (Es : set_nth (List.length pre) (l, Some x) (pre ++ (l, v) :: bs)%list = (pre ++ (l, Some x) :: bs)%list).
      { clear. induction pre as [|p pre IHp]; cbn; [reflexivity|]. now rewrite IHp. }
      rewrite Es. destruct v; rewrite (Hr _ (Some x)) by reflexivity; reflexivity.
    + apply (Hr w None); [|reflexivity]. rewrite E. destruct v as [v|]; [|reflexivity].
      exfalso. apply (H 0 l (Some v) eq_refl); [discriminate|]. now rewrite Nat.add_0_r.
Qed.

Lemma sets_executes (ok : world R -> call R -> Prop) f bs : (forall w b x, ok w (CBitSet R b x true)) ->
  forall k w, executes R ptrue peqb ok (sets_from k f bs) w.
Proof.
  intros H. induction bs as [|p bs IH]; intros k w; cbn [sets_from]; [exact I|]. destruct (f k); [|apply IH].
  split; [apply H|]. destruct (run _ w) as [w' []]; [apply IH|exact I].
Qed.

Lemma qubits_bits c (w : world R) : w_bit (fst (qubits c w)) = w_bit w.
Proof.
  unfold qubits, mbind, get_circ, the, read, put_circ, ret. destruct (nth_error (w_circ w) c) as [x|]; [|reflexivity]. cbn.
  destruct (s_cache (c_q x)); [reflexivity|]. cbn. unfold WorldModel.lift. destruct (concat_regs (w_bit w) (c_q x)); reflexivity.
Qed.

Lemma seen_qubits w c sc : seen w c = Some sc -> exists x r, nth_error (w_circ w) c = Some x /\ snd (qubits c w) = Ok r.
Proof. unfold seen. destruct (nth_error (w_circ w) c) as [x|]; [|discriminate]. destruct (snd (qubits c w)) as [r|]; [eauto|discriminate]. Qed.

(** The bits of the memory after a simulation. *)
Lemma simulate_set_writes rnd sc mixed le m st m' st' r : simulate_set rnd sc mixed le m st = (m', st', r) ->
  exists u, forall b, m_bits Ccring m' b = over u (m_bits Ccring m) b.
Proof.
  unfold simulate_set. destruct (simulate_writes Ccring R Cgtb Cis0 Cinvsqrt rnd sc mixed le m) as (u & H).
  fold (simulate_C rnd sc mixed le m) in H. destruct (simulate_C rnd sc mixed le m) as [m1 [o|e]]; cbn in H.
  - destruct (out_arr _ o) as [a|]; [destruct (set_state _ a true false st)|]; intros [= <- _ _]; eauto.
  - intros [= <- _ _]. eauto.
Qed.

Lemma refine p : forall s, exists q,
  run q (s_w s) = (s_w (fst (srun p s)), snd (srun p s)) /\
  (forall t, svisits ptrue peqb p s t -> visits R ptrue peqb q (s_w s) (s_w t)) /\
  (forall ok : world R -> call R -> Prop, (forall w b x, ok w (CBitSet R b x true)) -> (forall w c, ok w (CQubits R c)) ->
    sexecutes ptrue peqb ok p s -> executes R ptrue peqb ok q (s_w s)).
Proof.
  induction p as [|x|c mixed le rnd|c|c a force nz|c|p IHp q IHq|c p IH|p IH|p IH|e]; intros s.
  - exists Skip. cbn. split; [reflexivity|]. split; [|auto]. intros t [->|[->|[]]]; auto.
  - exists (Do x). cbn. unfold lift. destruct (do_call ptrue peqb x (s_w s)) as [w r] eqn:E. split; [reflexivity|].
    split; [|auto]. intros t [->|[->|[]]]; cbn; [now left|]. right. left. cbn. unfold lift. rewrite ?E. reflexivity.
  - cbn [SessionModel.srun sexecutes]. unfold sim. destruct (seen (s_w s) c) as [sc|] eqn:Es.
    + destruct (simulate_set rnd sc mixed le (found s) (s_st s c)) as [[m st] r] eqn:Em.
      destruct (seen_qubits _ _ _ Es) as (x & reg & _ & Eq). pose proof (qubits_bits c (s_w s)) as Eb.
      destruct (qubits c (s_w s)) as [w1 rq] eqn:Eqq. cbn in Eq, Eb. subst rq. cbn [fst].
      destruct (simulate_set_writes _ _ _ _ _ _ _ _ _ Em) as (u & Hu).
      set (body := Seq (Do (CQubits R c)) (Seq (sets_from 0 (m_bits Ccring m) (w_bit w1)) (match r with Ok _ => Skip | Err e => Raise e end))).
      assert (Er : run body (s_w s) = (put_bits (m_bits Ccring m) w1, r)).
      { cbn [body WorldModel.run do_call]. unfold unit_of, mbind at 1 2. rewrite Eqq. unfold ret at 1. unfold mbind.
        pose proof (sets_run (m_bits Ccring m) (w_bit w1) [] w1 eq_refl) as A. cbn [app List.length] in A. rewrite A.
        - destruct r as [[]|e]; reflexivity.
        - intros i l v Ei Hv. cbn [plus]. rewrite Hu. unfold over. destruct (u i); [discriminate|]. cbn. rewrite <- Eb, Ei. exact Hv. }
      exists body. cbn [s_w fst snd]. split; [exact Er|]. split.
      * intros t [->|[->|[]]]; [now left|]. right. left. cbn [SessionModel.srun]. unfold sim. rewrite Es, Em, Eqq. cbn [fst s_w]. exact (eq_sym (f_equal fst Er)).
      * intros ok H1 H2 _. split; [apply H2|]. cbn [WorldModel.run do_call]. unfold unit_of, mbind. rewrite Eqq. unfold ret. split; [now apply sets_executes|].
        destruct (run _ w1) as [w2 []]; [|exact I]. destruct r; exact I.
    + exists (Raise Undefined). cbn. split; [reflexivity|]. split; [|auto].
      intros t [->|[->|[]]]; cbn; [now left|]. right. left. cbn. unfold sim. now rewrite Es.
  - exists Skip. cbn. split; [reflexivity|]. split; [|auto]. intros t [->|[->|[]]]; auto.
  - cbn [SessionModel.srun sexecutes].
    assert (G : exists q, run q (s_w s) = (s_w (fst (set_st c a force nz s)), snd (set_st c a force nz s)) /\
      forall ok : world R -> call R -> Prop, (forall w c, ok w (CQubits R c)) -> executes R ptrue peqb ok q (s_w s)).
    { unfold set_st. destruct (negb force && _); [exists (Raise CircuitError); split; [reflexivity|intros; exact I]|].
      unfold num_qubits, mbind. destruct (qubits c (s_w s)) as [w1 [r|e]] eqn:Eq.
      - unfold ret. destruct (set_state (N.of_nat (stop (core r))) a force nz (s_st s c)) as [st [[]|e]].
        + exists (Do (CQubits R c)). split; [|intros ok H; apply H]. cbn. unfold unit_of, mbind. now rewrite Eq.
        + exists (Seq (Do (CQubits R c)) (Raise e)). split; [cbn; unfold unit_of, mbind; now rewrite Eq|].
          intros ok H. split; [apply H|]. cbn. unfold unit_of, mbind. rewrite Eq. exact I.
      - exists (Do (CQubits R c)). split; [|intros ok H; apply H]. cbn. unfold unit_of, mbind. now rewrite Eq. }
    destruct G as (q & Er & Hok). exists q. split; [exact Er|]. split; [|intros ok H1 H2 _; now apply Hok].
    intros t [->|[->|[]]]; [destruct q; now left|]. assert (V : s_w (fst (srun (SSet c a force nz) s)) = fst (run q (s_w s))) by exact (eq_sym (f_equal fst Er)).
    rewrite V. destruct q; right; left; reflexivity. 
  - exists (match get_state (s_st s c) with Ok _ => Skip | Err e => Raise e end). cbn. unfold read_state. cbn.
    destruct (get_state (s_st s c)) as [o|e]; (split; [reflexivity|]; split; [|auto]; intros t [->|[->|[]]]; cbn; auto).
  - destruct (IHp s) as (p' & E1 & V1 & O1). cbn [SessionModel.srun]. destruct (srun p s) as [s1 r1] eqn:Ep. cbn [fst snd] in E1.
    destruct r1 as [[]|e].
    + destruct (IHq s1) as (q' & E2 & V2 & O2). exists (Seq p' q').
      assert (Er : run (Seq p' q') (s_w s) = (s_w (fst (srun q s1)), snd (srun q s1))).
      { cbn [WorldModel.run]. unfold mbind. now rewrite E1, E2. }
      split; [exact Er|]. split.
      * intros t [->|[->|[H|H]]].
        -- now left.
        -- right. left. cbn [SessionModel.srun]. rewrite Ep. cbn [then_]. exact (eq_sym (f_equal fst Er)).
        -- right. right. left. now apply V1.
        -- rewrite Ep in H. right. right. right. rewrite E1. now apply V2.
      * intros ok H1 H2 [A B]. rewrite Ep in B. split; [now apply O1|]. rewrite E1. now apply O2.
    + exists (Seq p' Skip). assert (Er : run (Seq p' Skip) (s_w s) = (s_w s1, Err e)) by (cbn [WorldModel.run]; unfold mbind; now rewrite E1).
      cbn [then_ fst snd]. split; [exact Er|]. split.
      * intros t [->|[->|[H|H]]].
        -- now left.
        -- right. left. cbn [SessionModel.srun]. rewrite Ep. cbn [then_ fst]. exact (eq_sym (f_equal fst Er)).
        -- right. right. left. now apply V1.
        -- rewrite Ep in H. destruct H.
      * intros ok H1 H2 [A B]. split; [now apply O1|]. rewrite E1. exact I.
  - assert (Ee : entered c s = lift (let! a := context c in ctx_enter a) s) by reflexivity. unfold lift, mbind in Ee.
    cbn [SessionModel.srun svisits sexecutes]. destruct (context c (s_w s)) as [w [a|e]] eqn:Ec.
    + unfold lift. cbn [with_world s_w]. destruct (ctx_enter a w) as [w' [[]|e]] eqn:Ea.
      * cbn [then_]. set (s1 := with_world (with_world s w) w'). change (with_world s w') with s1 in Ee.
        destruct (IH s1) as (p' & E1 & V1 & O1). exists (With c p').
        assert (Er : run (With c p') (s_w s) = (s_w (fst (lastly (srun p s1) (ctx_exit a))), snd (lastly (srun p s1) (ctx_exit a)))).
        { cbn [WorldModel.run]. unfold mbind. rewrite Ec, Ea. change w' with (s_w s1). rewrite E1. unfold finally, lastly.
          destruct (srun p s1) as [s2 r2]. cbn [fst snd]. destruct (ctx_exit a (s_w s2)) as [w2 []]; reflexivity. }
        split; [exact Er|]. split.
        -- intros t [->|[->|H]]; [now left|right; left; cbn [fst]; exact (eq_sym (f_equal fst Er))|]. rewrite Ee in H. right. right.
           unfold mbind. rewrite Ec, Ea. now apply V1.
        -- intros ok H1 H2 H. rewrite Ee in H. cbn [executes]. unfold mbind. rewrite Ec, Ea. now apply O1.
      * exists (With c Skip). assert (Er : run (With c Skip) (s_w s) = (w', Err e)) by (cbn [WorldModel.run]; unfold mbind; now rewrite Ec, Ea).
        cbn [then_ fst snd with_world s_w]. split; [exact Er|]. split.
        -- intros t [->|[->|H]]; [now left|right; left; cbn [fst with_world s_w]; exact (eq_sym (f_equal fst Er))|]. rewrite Ee in H. destruct H.
        -- intros ok H1 H2 H. cbn [executes]. unfold mbind. now rewrite Ec, Ea.
    + exists (With c Skip). assert (Er : run (With c Skip) (s_w s) = (w, Err e)) by (cbn [WorldModel.run]; unfold mbind; now rewrite Ec).
      cbn [fst snd with_world s_w]. split; [exact Er|]. split.
      -- intros t [->|[->|H]]; [now left|right; left; cbn [fst with_world s_w]; exact (eq_sym (f_equal fst Er))|]. rewrite Ee in H. destruct H.
      -- intros ok H1 H2 H. cbn [executes]. unfold mbind. now rewrite Ec.
  - cbn [SessionModel.srun svisits sexecutes]. unfold lift. destruct (set_frozen true CircuitError (s_w s)) as [w' [[]|e]] eqn:Ea.
    + cbn [then_]. set (s1 := with_world s w'). destruct (IH s1) as (p' & E1 & V1 & O1). exists (Frozen p').
      assert (Er : run (Frozen p') (s_w s) = (s_w (fst (lastly (srun p s1) (set_frozen false AttributeError))), snd (lastly (srun p s1) (set_frozen false AttributeError)))).
      { cbn [WorldModel.run]. unfold mbind. rewrite Ea. change w' with (s_w s1). rewrite E1. unfold finally, lastly.
        destruct (srun p s1) as [s2 r2]. cbn [fst snd]. destruct (set_frozen false AttributeError (s_w s2)) as [w2 []]; reflexivity. }
      split; [exact Er|]. split.
      * intros t [->|[->|H]]; [now left|right; left; exact (eq_sym (f_equal fst Er))|]. right. right.
        change (match set_frozen true CircuitError (s_w s) with (w0, Ok _) => visits R ptrue peqb p' w0 (s_w t) | _ => False end).
        rewrite Ea. now apply V1.
      * intros ok H1 H2 H. cbn [executes]. rewrite ?Ea. now apply O1.
    + exists (Frozen Skip). assert (Er : run (Frozen Skip) (s_w s) = (w', Err e)) by (cbn [WorldModel.run]; unfold mbind; now rewrite Ea).
      cbn [then_ fst snd with_world s_w]. split; [exact Er|]. split.
      * intros t [->|[->|H]]; [now left|right; left; cbn [fst with_world s_w]; exact (eq_sym (f_equal fst Er))|]. destruct H.
      * intros ok H1 H2 H. cbn [executes]. rewrite ?Ea. exact I.
  - destruct (IH s) as (p' & E1 & V1 & O1). exists (Try p').
    assert (Er : run (Try p') (s_w s) = (s_w (fst (srun p s)), Ok tt)) by (cbn [WorldModel.run]; now rewrite E1).
    cbn [SessionModel.srun fst snd]. split; [exact Er|]. split.
    + intros t [->|[->|H]]; [now left|right; left; cbn [SessionModel.srun fst]; exact (eq_sym (f_equal fst Er))|]. right. right. now apply V1.
    + intros ok H1 H2 H. now apply O1.
  - exists (Raise e). cbn. split; [reflexivity|]. split; [|auto]. intros t [->|[->|[]]]; auto.
Qed.
End Refine.

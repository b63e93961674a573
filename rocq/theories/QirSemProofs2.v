(** Simulating a circuit that ends with measurements does what the compiled QIR program does. *)
From Coq Require Import List String Bool Arith NArith Reals Lra Lia.
From Verif Require Import Py CRing Cplx KernelModel KernelSpec KernelBits KernelProofs KernelProofs2 SimModel SimSpec SimReal SimProofs SimProofs2 SimProofs3
  MeasureSpec SampleSpec SampleProofs StateModel StateProofs GateModel QirModel QirSpec LinkSpec QirSemSpec QirMeantSpec QirSemProofs.
Import ListNotations.
Local Open Scope R_scope.

Lemma collapses_app n ts us os v u : collapses n ts us os v u -> forall ts' us' os' w, collapses n ts' us' os' u w ->
  collapses n (ts ++ ts') (us ++ us') (os ++ os') v w.
Proof.
  induction 1 as [v u H|t ts u0 us o os v v' u Ho Hp Hv H IH]; intros ts' us' os' w Hw; cbn [app].
  - apply (collapses_ext _ _ _ _ u); [exact Hw|exact H].
  - apply collapses_cons with (v' := v'); auto.
Qed.
Lemma F2_length {A B} (Q : A -> B -> Prop) l m : Forall2 Q l m -> List.length l = List.length m.
Proof. induction 1; cbn; congruence. Qed.
Lemma stores_app l l' rs : stores (l ++ l') rs = stores l' (stores l rs).
Proof. apply fold_left_app. Qed.
Lemma stores_ext l : forall rs rs', (forall k, rs k = rs' k) -> forall k, stores l rs k = stores l rs' k.
Proof. induction l as [|x l IH]; intros rs rs' H k; [apply H|]. cbn. apply IH. intros j. unfold written. now rewrite H. Qed.
Lemma combine_app {A B} (l : list A) (m : list B) l' m' : List.length l = List.length m ->
  combine (l ++ l') (m ++ m') = (combine l m ++ combine l' m')%list.
Proof. revert m. induction l as [|a l IH]; intros [|b m] H; try discriminate; [reflexivity|]. cbn. f_equal. apply IH. now injection H. Qed.
Lemma skipn_nth {A} (l : list A) : forall k a, nth_error l k = Some a -> skipn k l = a :: skipn (S k) l.
Proof. induction l as [|b l IH]; intros [|k] a H; try discriminate; [now injection H as ->|]. cbn [skipn]. now apply IH. Qed.

Section Run.
Variable rnd : nat -> R.
Hypothesis Hrnd : forall k, uniform (rnd k).

Lemma measure_stores n mid bs ts : (n <= 30)%N -> (forall t, In t ts -> (t < n)%N) ->
  forall idx (m : SimModel.mem Ccring) v, normalised n v -> (idx + List.length ts <= List.length bs)%nat ->
  exists m' w os, measure_loop Ccring R Cgtb Cis0 Cinvsqrt rnd n mid (Some bs) idx ts m v = (m', Ok w) /\
    collapses n ts (map rnd (seq (m_pos Ccring m) (List.length ts))) os v w /\ normalised n w /\
    (forall b, m_bits Ccring m' b = stores (combine (skipn idx bs) os) (m_bits Ccring m) b) /\
    m_pos Ccring m' = (m_pos Ccring m + List.length ts)%nat.
Proof.
  intros Hn. induction ts as [|t ts IH]; intros Hl idx m v Hv Hb.
  - exists m, v, []. cbn [measure_loop List.length seq map]. split; [reflexivity|]. split; [now constructor|].
    split; [exact Hv|]. split; [intros b; destruct (skipn idx bs); reflexivity|lia].
  - cbn [measure_loop].
    destruct (measurement_correct false n t (rnd (m_pos Ccring m)) v Hn (Hl t (or_introl eq_refl)) Hv (Hrnd _))
      as (o & v' & E & Ho & Hpos & Hv' & Hval). fold sample_qubit_C. rewrite E. cbn [List.length] in Hb.
    destruct (nth_error bs idx) as [b0|] eqn:Eb; [|apply nth_error_None in Eb; lia].
    destruct (IH (fun x Hx => Hl x (or_intror Hx)) (S idx) (add_idx Ccring mid t (set_bit Ccring b0 (Nat.eqb (if o then 1%nat else 0%nat) 1) (next_rnd Ccring m))) v' Hv')
      as (m' & w & os & E' & Hc & Hw & Hs & Hp); [lia|].
    exists m', w, (o :: os). split; [exact E'|]. split; [|split; [exact Hw|split]].
    + cbn [List.length seq map]. econstructor; eauto.
    + intros b. rewrite Hs, (skipn_nth bs idx b0 Eb). cbn [combine stores fold_left fst snd add_idx set_bit m_bits next_rnd].
      fold (stores (combine (skipn (S idx) bs) os)). apply stores_ext. intros k. unfold written. destruct (Nat.eqb k b0); [destruct o; reflexivity|reflexivity].
    + rewrite Hp. cbn [add_idx set_bit next_rnd m_pos List.length]. lia.
Qed.

Section Ops.
Variable sc : scirc Ccring.
Hypothesis Hnd : NoDup (sc_qubits Ccring sc).
Notation n := (SimModel.num_qubits Ccring sc).
Hypothesis Hn : (n <= 30)%N.

(** A measurement of the pairs of a qubit and a bit. *)
Definition says_meas (l : list (nat * nat)) (o : sop Ccring) : Prop :=
  exists mid qs bs, so_kind Ccring o = KMeasure Ccring mid (Some bs) /\ so_qubits Ccring o = Some qs /\ so_cond Ccring o = [] /\
    (List.length qs <= List.length bs)%nat /\ l = combine qs bs.
Definition placed_pair (cb : list nat) (x y : nat * nat) : Prop :=
  nth_error (sc_qubits Ccring sc) (fst y) = Some (fst x) /\ nth_error cb (snd y) = Some (snd x).

Lemma combine_snd_eq {A B} (qs : list A) : forall (bs : list B) os, (List.length qs <= List.length bs)%nat -> List.length os = List.length qs ->
  combine (map snd (combine qs bs)) os = combine bs (os : list bool).
Proof.
  induction qs as [|q qs IH]; intros [|b bs] [|o os] H1 H2; cbn in *; try lia; try reflexivity.
  - f_equal. apply IH; lia.
Qed.
Lemma placed_meas o qs ys cb : wf_op sc o -> so_qubits Ccring o = Some qs -> forall bs, (List.length qs <= List.length bs)%nat ->
  Forall2 (placed_pair cb) (combine qs bs) ys -> placed sc o (at_n ys).
Proof.
  intros _ E bs Hl F. exists qs. split; [exact E|]. clear E. revert bs ys Hl F. induction qs as [|q qs IH]; intros bs ys Hl F.
  - inversion F. constructor.
  - destruct bs as [|b bs]; [cbn in Hl; lia|]. cbn [combine] in F. inversion F as [|? y ? ys' [H1 _] F']; subst. cbn [at_n map].
    constructor; [now rewrite Nat2N.id|]. apply (IH bs ys'); [cbn in Hl; lia|exact F'].
Qed.

Lemma measurements_run cb ms ls : Forall2 says_meas ls ms -> (forall o, In o ms -> wf_op sc o) ->
  forall ys, Forall2 (placed_pair cb) (List.concat ls) ys -> forall m v, normalised n v ->
  exists m' w os, run_pure_C rnd sc false ms m v = (m', Ok w) /\
    collapses n (at_n ys) (map rnd (seq (m_pos Ccring m) (List.length ys))) os v w /\
    (forall b, m_bits Ccring m' b = stores (combine (map snd (List.concat ls)) os) (m_bits Ccring m) b).
Proof.
  intros F. induction F as [|l o ls ms H F IH]; intros Hwf ys Hy m v Hv.
  - cbn in Hy. inversion Hy; subst. exists m, v, []. split; [reflexivity|]. split; [now constructor|reflexivity].
  - cbn [List.concat] in Hy. apply Forall2_app_inv_l in Hy. destruct Hy as (y1 & y2 & F1 & F2 & ->).
    destruct H as (mid & qs & bs & Ek & Eq & Ec & Hl & ->). pose proof (Hwf o (or_introl eq_refl)) as Hw.
    destruct (placed_wf Ccring sc o Hw) as (ts & E & Hp & Hlt & _).
    assert (ts = at_n y1) by (apply (placed_unique Ccring sc o ts (at_n y1) Hnd Hp); now apply (placed_meas o qs y1 cb Hw Eq bs)). subst ts.
    assert (L1 : List.length (at_n y1) = List.length qs).
    { unfold at_n. rewrite map_length, <- (F2_length _ _ _ F1), combine_length. lia. }
    destruct (measure_stores n mid bs (at_n y1) Hn Hlt 0%nat (set_mstate Ccring mid v m) v Hv) as (m1 & w1 & os1 & E1 & C1 & Nw & S1 & P1); [lia|].
    destruct (IH (fun x Hx => Hwf x (or_intror Hx)) y2 F2 m1 w1 Nw) as (m' & w & os2 & E2 & C2 & S2).
    exists m', w, (os1 ++ os2)%list. split; [|split].
    + unfold run_pure_C in *. cbn [run_pure]. rewrite E. unfold apply_instruction. assert (Eb : is_blocked Ccring m o = false) by (unfold is_blocked; now rewrite Ec).
      rewrite Eb, Ek. unfold measure. rewrite E1. exact E2.
    + unfold at_n. rewrite map_app, app_length, seq_app, map_app. eapply collapses_app; [|].
      * unfold at_n in C1. rewrite map_length in C1. exact C1.
      * rewrite P1 in C2. unfold at_n in C2. rewrite map_length in C2. exact C2.
    + intros b. rewrite S2. cbn [List.concat]. rewrite map_app.
      assert (L2 : List.length os1 = List.length qs) by (destruct (collapses_length _ _ _ _ _ _ C1) as [L2 _]; lia).
      rewrite combine_app by (rewrite map_length, combine_length; lia). rewrite stores_app. apply stores_ext. intros k.
      rewrite S1. cbn [skipn set_mstate m_bits]. now rewrite (combine_snd_eq qs bs os1 Hl L2).
Qed.
End Ops.
End Run.

(** ** Results and bits *)
Lemma stores_in l : forall rs j, In j (map fst l) -> exists o, stores l rs j = Some o.
Proof.
  induction l as [|[k o] l IH]; intros rs j; [intros []|]. cbn [map fst stores fold_left snd]. intros H. fold (stores l (written k o rs)).
  destruct (in_dec Nat.eq_dec j (map fst l)) as [Hi|Hi]; [now apply IH|]. destruct H as [<-|H]; [|contradiction]. exists o.
  assert (G : forall l rs, ~ In k (map fst l) -> stores l rs k = rs k).
  { clear. induction l as [|[k' o'] l IH]; intros rs H; [reflexivity|]. cbn [stores fold_left fst snd]. fold (stores l (written k' o' rs)).
    cbn in H. rewrite IH by tauto. unfold written. destruct (Nat.eqb_spec k k'); [subst; tauto|reflexivity]. }
  rewrite G by exact Hi. unfold written. now rewrite Nat.eqb_refl.
Qed.
Lemma stores_notin l : forall rs k, ~ In k (map fst l) -> stores l rs k = rs k.
Proof.
  induction l as [|[k' o'] l IH]; intros rs k H; [reflexivity|]. cbn [stores fold_left fst snd]. fold (stores l (written k' o' rs)).
  cbn in H. rewrite IH by tauto. unfold written. destruct (Nat.eqb_spec k k'); [subst; tauto|reflexivity].
Qed.
Lemma stores_match cb (Hcb : NoDup cb) : forall (js bs : list nat) os, Forall2 (fun b j => nth_error cb j = Some b) bs js ->
  forall rs (m0 m : nat -> option bool), (forall j b, nth_error cb j = Some b -> m b = match rs j with Some o => Some o | None => m0 b end) ->
  forall j b, nth_error cb j = Some b ->
    stores (combine bs os) m b = match stores (combine js os) rs j with Some o => Some o | None => m0 b end.
Proof.
  intros js bs os F. revert os. induction F as [|b0 j0 bs js H F IH]; intros os rs m0 m Hm j b Hj; [now apply Hm|].
  destruct os as [|o os]; [now apply Hm|]. cbn [combine stores fold_left fst snd].
  fold (stores (combine bs os) (written b0 o m)). fold (stores (combine js os) (written j0 o rs)).
  apply IH; [|exact Hj]. intros k c Hk. unfold written. destruct (Nat.eqb_spec c b0) as [->|Hc].
  - assert (k = j0). { apply (proj1 (NoDup_nth_error cb) Hcb); [apply nth_error_Some; congruence|congruence]. } subst k. now rewrite Nat.eqb_refl.
  - destruct (Nat.eqb_spec k j0) as [->|_]; [congruence|]. now apply Hm.
Qed.

(** Simulating a circuit that ends with measurements does what the compiled QIR program does. *)
From Coq Require Import List String Bool Arith NArith Reals Lra Lia.
From Verif Require Import Py CRing Cplx KernelModel KernelSpec KernelBits KernelProofs KernelProofs2 SimModel SimSpec SimReal SimProofs SimProofs2 SimProofs3 SimProofs4
  MeasureSpec SampleSpec SampleProofs StateModel StateProofs GateModel QirModel QirSpec LinkSpec QirSemSpec QirMeantSpec QirSemProofs QirSemProofs2.
Import ListNotations.
Local Open Scope R_scope.

Section Circuit.
Variable sc : scirc Ccring.
Variable cb : list nat.
Variable m0 : SimModel.mem Ccring.
Variables gs ms : list (sop Ccring).
Variable a : list (call R).
Variable ls : list (list (nat * nat)).
Variable ys : list (nat * nat).
Hypothesis Hwf : wf_circ sc.
Hypothesis Hun : unitary_circ sc.
Notation n := (SimModel.num_qubits Ccring sc).
Hypothesis Hn : (n <= 30)%N.
Hypothesis Hops : sc_ops Ccring sc = (gs ++ ms)%list.
Hypothesis Hgs : forall o, In o gs -> is_measure (so_kind Ccring o) = false.
Hypothesis Ha : Forall2 (says_gate sc) a gs.
Hypothesis Hms : Forall2 says_meas ls ms.
Hypothesis Hys : Forall2 (placed_pair sc cb) (List.concat ls) ys.
Hypothesis Hcb : NoDup cb.
Hypothesis Hpos : m_pos Ccring m0 = 0%nat.

Lemma Hnd : NoDup (sc_qubits Ccring sc).
Proof. exact (proj1 Hwf). Qed.

Lemma gates_state rnd : (forall k, uniform (rnd k)) ->
  exists w, run_pure_C rnd sc false gs m0 (zero_state Ccring) = (m0, Ok w) /\ normalised n w /\ runs false sc (m_bits Ccring m0) gs (zero_state Ccring) w.
Proof.
  intros Hr. pose proof Hwf as (_ & _ & W).
  destruct (run_pure_runs Ccring R Cgtb Cis0 Cinvsqrt rnd sc false gs m0 Hn) with (v := zero_state Ccring) as (w & E & Hw).
  { intros o Ho. split; [apply W; rewrite Hops; apply in_or_app; now left|now apply Hgs]. }
  destruct (run_pure_norm rnd Hr sc false gs Hn Hnd) with (m := m0) (v := zero_state Ccring) as (m' & w' & E' & Nw).
  { intros o Ho. assert (Hi : In o (sc_ops Ccring sc)) by (rewrite Hops; apply in_or_app; now left). split; [now apply W|]. split; [now apply Hun|discriminate]. }
  { apply zero_normalised. }
  exists w. fold run_pure_C in E. rewrite E in E'. injection E' as <- <-. auto.
Qed.
Lemma gates_same bits w w' : runs false sc bits gs (zero_state Ccring) w -> runs false sc bits gs (zero_state Ccring) w' -> forall i, (i < 2 ^ n)%N -> w i = w' i.
Proof.
  intros H H'. assert (G : qir_run n [] (mkMach w' (fun _ => None) []) [] 1 (mkMach w (fun _ => None) [])).
  { apply (gates_back sc Hnd a gs Ha bits (zero_state Ccring) w' H'). apply (gates_forward sc Hnd a gs Ha bits (zero_state Ccring) w H). now constructor. }
  inversion G; subst. assumption.
Qed.
Lemma places_ok x : In x ys -> (N.of_nat (fst x) < n)%N.
Proof.
  intros Hx. unfold SimModel.num_qubits. assert (fst x < List.length (sc_qubits Ccring sc))%nat; [|lia]. apply nth_error_Some.
  pose proof Hys as F. clear -F Hx. induction F as [|p y ps ys [H _] _ IH]; [contradiction|]. destruct Hx as [->|Hx]; [congruence|auto].
Qed.
Lemma bit_places : Forall2 (fun b j => nth_error cb j = Some b) (map snd (List.concat ls)) (map snd ys).
Proof. pose proof Hys as F. clear -F. induction F as [|p y ps ys [_ H] _ IH]; cbn; constructor; assumption. Qed.

(** The results [zs] are recorded, which stand for the bits [zb]. *)
Section Records.
Variable zs : list (nat * nat).
Variable zb : list nat.
Hypothesis Hzs : incl (map snd zs) (map snd ys).
Hypothesis Hzb : Forall2 (fun b j => nth_error cb j = Some b) zb (map snd zs).
Theorem sem_records : same_runs sc cb zb m0 (Call R "__quantum__rt__initialize" [] :: a ++ map mz ys ++ map rec zs).
Proof.
  assert (H0 : forall k : nat, uniform 0) by (intros; unfold uniform; lra).
  destruct (gates_state (fun _ => 0) H0) as (w1 & _ & N1 & R1).
  assert (Sim : forall rnd, (forall k, uniform (rnd k)) -> exists m os w, run_pure_C rnd sc false (sc_ops Ccring sc) m0 (zero_state Ccring) = (m, Ok w) /\
    normalised n w /\ collapses n (at_n ys) (map rnd (seq 0 (List.length ys))) os w1 w /\
    (forall b, m_bits Ccring m b = stores (combine (map snd (List.concat ls)) os) (m_bits Ccring m0) b)).
  { intros rnd Hr. destruct (gates_state rnd Hr) as (w2 & E2 & N2 & R2). pose proof Hwf as (_ & _ & W).
    destruct (measurements_run rnd Hr sc Hnd Hn cb ms ls Hms) with (ys := ys) (m := m0) (v := w2) as (m & w & os & E & C & S); [|exact Hys|exact N2|].
    { intros o Ho. apply W. rewrite Hops. apply in_or_app. now right. }
    assert (Er : run_pure_C rnd sc false (sc_ops Ccring sc) m0 (zero_state Ccring) = (m, Ok w)).
    { rewrite Hops. unfold run_pure_C in *. rewrite run_pure_app, E2. exact E. }
    exists m, os, w. split; [exact Er|]. split; [|split; [|exact S]].
    - destruct (run_pure_norm rnd Hr sc false (sc_ops Ccring sc) Hn Hnd) with (m := m0) (v := zero_state Ccring) as (m' & w' & E' & Nw).
      + intros o Ho. split; [now apply W|]. split; [now apply Hun|discriminate].
      + apply zero_normalised.
      + rewrite Er in E'. injection E' as <- <-. exact Nw.
    - rewrite Hpos in C. eapply collapses_ext; [exact C|]. now apply (gates_same (m_bits Ccring m0)). }
  exists (fun rnd os => exists w, collapses n (at_n ys) (map rnd (seq 0 (List.length ys))) os w1 w). split; [|split].
  - intros rnd Hr. destruct (Sim rnd Hr) as (m & os & w & _ & _ & C & _). exists os. split; [eauto|].
    intros os' (w' & C'). now destruct (collapses_fun _ _ _ _ _ _ C' os w1 w C).
  - intros rnd os st Hr (w' & C'). destruct (Sim rnd Hr) as (m & os' & w & E & Nw & C & S).
    destruct (collapses_fun _ _ _ _ _ _ C' os' w1 w C) as [<- _]; [reflexivity|].
    set (rs := stores (combine (map snd ys) os) (fun _ => None)).
    assert (Lo : List.length os = List.length (map snd ys)).
    { destruct (collapses_length _ _ _ _ _ _ C) as [L _]. rewrite L. unfold at_n. now rewrite !map_length. }
    exists (joint n (at_n ys) os w1 * 1), (mkMach w rs ([] ++ map (fun x => rs (snd x)) zs)). split.
    + constructor. apply (gates_forward sc Hnd a gs Ha _ (zero_state Ccring) w1 R1).
      rewrite <- (app_nil_r os) at 1. apply (mz_forward sc ys places_ok (map rnd (seq 0 (List.length ys))) os w1 w (fun _ => None)); [exact C|exact N1|].
      fold rs. apply rec_forward.
    + assert (B : forall j b, nth_error cb j = Some b -> m_bits Ccring m b = match rs j with Some o => Some o | None => m_bits Ccring m0 b end).
      { intros j b Hj. rewrite S. unfold rs. apply (stores_match cb Hcb _ _ os bit_places (fun _ => None)); [reflexivity|exact Hj]. }
      exists m, w. split; [|split; [reflexivity|split; [exact B|split; [|split]]]].
      * assert (Es : simulate_C rnd sc false false m0 = (m, Ok (SVec Ccring w))).
        { unfold simulate_C, simulate. pose proof (proj1 (proj2 Hwf)) as Hne. destruct (sc_qubits Ccring sc); [congruence|].
          unfold run_pure_C in E. now rewrite E. }
        unfold simulate_set. rewrite Es. cbn [out_arr]. rewrite set_state_vec; auto using num_qubits_pos.
      * intros j Hj. cbn [result]. unfold rs. apply stores_notin. intros Hi. assert (Hi' : In j (map snd ys)).
        { revert Hi. clear. revert os. induction (map snd ys) as [|y l IH]; intros [|o os]; cbn; try tauto. intros [H|H]; [now left|right; eauto]. }
        pose proof bit_places as F. clear -F Hi' Hj. induction F as [|b j' bs js H _ IH]; [contradiction|]. destruct Hi' as [->|Hi']; [congruence|auto].
      * intros b Hb. rewrite S. apply stores_notin. intros Hi. apply Hb. assert (Hi' : In b (map snd (List.concat ls))).
        { revert Hi. clear. revert os. induction (map snd (List.concat ls)) as [|y l IH]; intros [|o os]; cbn; try tauto. intros [H|H]; [now left|right; eauto]. }
        pose proof bit_places as F. clear -F Hi'. induction F as [|b' j' bs js H _ IH]; [contradiction|]. destruct Hi' as [->|Hi']; [now apply nth_error_In in H|auto].
      * cbn [output app]. pose proof Hzb as F.
        assert (G : forall x, In x (map snd zs) -> exists o, rs x = Some o).
        { intros x Hx. apply Hzs in Hx. apply stores_in. clear -Lo Hx. revert os Lo. induction (map snd ys) as [|y l IH]; intros [|o os] Lo; try discriminate Lo; [contradiction|].
          cbn. destruct Hx as [->|Hx]; [now left|right; apply IH; [exact Hx|now injection Lo]]. }
        rewrite <- (map_map snd rs). clear -F B G. clearbody rs. induction F as [|b j bs js H F IH]; [reflexivity|]. cbn [map]. f_equal.
        -- rewrite (B j b H). destruct (G j (or_introl eq_refl)) as (o & ->). reflexivity.
        -- apply IH. intros x Hx. apply G. now right.
  - intros os p s H. apply run_init_inv in H. apply (gates_back sc Hnd a gs Ha _ _ w1 R1) in H. apply mz_back in H; [|exact N1].
    destruct H as (os1 & os2 & p' & w & -> & L & -> & H). apply rec_back in H. destruct H as [-> ->]. rewrite app_nil_r, Rmult_1_r.
    assert (L' : List.length os1 = List.length (at_n ys)) by (unfold at_n; now rewrite map_length).
    destruct (collapses_box n (at_n ys) os1 w1 N1 L') as (b & Lb & Ub & Vb & Hb). exists b. split; [congruence|]. split; [exact Ub|]. split; [exact Vb|].
    intros rnd Hr. rewrite L. apply Hb; [|rewrite map_length, seq_length; unfold at_n; now rewrite map_length].
    apply Forall_forall. intros u Hu. apply in_map_iff in Hu. destruct Hu as (k & <- & _). apply Hr.
Qed.
End Records.
Theorem sem_circuit : same_runs sc cb (map snd (List.concat ls)) m0 (Call R "__quantum__rt__initialize" [] :: a ++ map mz ys ++ map rec ys).
Proof. apply sem_records; [apply incl_refl|exact bit_places]. Qed.
End Circuit.

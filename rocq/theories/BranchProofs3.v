(** Simulations take the branches of the circuit, in programs too. *)
From Coq Require Import List NArith Arith Bool Lia Reals.
From Verif Require Import Py CRing Cplx KernelSpec SimModel SimSpec SimProofs SimProofs2 SimProofs3 SimReal SampleSpec StateModel
  RegisterModel WorldModel WorldSpec WorldSpec4 WorldInv WorldInv7 LinkModel LinkSpec LinkProofs SessionModel SessionSpec SessionProofs SessionProofs2 SessionProofs3 SessionProofs4
  BornSpec BornProofs BranchSpec BranchProofs BranchProofs2.
Import ListNotations.
Local Open Scope nat_scope.

Theorem simulate_branches c (m : SimModel.mem Ccring) : wf_circ c -> unitary_circ c -> (SimModel.num_qubits Ccring c <= 30)%N ->
  let n := SimModel.num_qubits Ccring c in
  let possible h bits w := branch c (sc_ops Ccring c) h (m_bits Ccring m) (zero_state Ccring) bits w in
  exists B : list bool -> box,
    (forall h bits w, possible h bits w ->
       List.length (B h) = List.length h /\ in_unit (B h) /\ volume (B h) = weight n w /\
       forall rnd, (forall k, uniform (rnd k)) -> inside (map rnd (seq (m_pos Ccring m) (List.length h))) (B h) ->
         (0 < weight n w)%R /\ exists m' a, simulate_C rnd c false false m = (m', Ok (SVec Ccring a)) /\
           (forall b, m_bits Ccring m' b = bits b) /\ m_pos Ccring m' = m_pos Ccring m + List.length h /\
           forall i, (i < 2 ^ n)%N -> a i = scaled n w i) /\
    (forall rnd, (forall k, uniform (rnd k)) -> exists h bits w, possible h bits w /\
       inside (map rnd (seq (m_pos Ccring m) (List.length h))) (B h) /\
       forall h' bits' w', possible h' bits' w' -> inside (map rnd (seq (m_pos Ccring m) (List.length h'))) (B h') -> h' = h).
Proof.
  intros (Hnd & Hne & Hwf) Hu Hn n possible.
  destruct (boxes c Hnd Hn (sc_ops Ccring c)) with (bits := m_bits Ccring m) (v := zero_state Ccring) as (B & B1 & B2); [auto|apply zero_normalised|].
  exists B. split; [|intros rnd Hr; apply (B2 rnd (m_pos Ccring m) Hr)].
  intros h bits w H. destruct (B1 h bits w H) as (C1 & C2 & C3 & C4). split; [exact C1|]. split; [exact C2|]. split; [exact C3|].
  intros rnd Hr Hi. destruct (C4 rnd m (zero_state Ccring) Hr (fun _ => eq_refl) (fun _ _ => eq_refl) Hi) as (D1 & m' & a & D2 & D3). split; [exact D1|].
  exists m', a. split; [|exact D3]. unfold simulate_C, simulate. destruct (sc_qubits Ccring c); [congruence|].
  unfold run_pure_C in D2. now rewrite D2.
Qed.

Theorem simulate_total c bits : wf_circ c -> unitary_circ c ->
  let possible h bits' w := branch c (sc_ops Ccring c) h bits (zero_state Ccring) bits' w in
  exists l : list (list bool * R),
    NoDup (map fst l) /\ (forall h, In h (map fst l) <-> exists bits' w, possible h bits' w) /\
    (forall h p, In (h, p) l -> forall bits' w, possible h bits' w -> p = weight (SimModel.num_qubits Ccring c) w) /\ Rsum l snd = 1%R.
Proof.
  intros (Hnd & Hne & Hwf) Hu possible.
  destruct (branches_total c Hnd (sc_ops Ccring c)) with (bits := bits) (v := zero_state Ccring) as (l & L1 & L2 & L3 & L4); [auto|].
  exists l. split; [exact L1|]. split; [exact L2|]. split; [exact L3|]. rewrite L4. apply zero_normalised.
Qed.

Theorem branch_same c h bits : wf_circ c -> forall v bits1 w1 bits2 w2, branch c (sc_ops Ccring c) h bits v bits1 w1 -> branch c (sc_ops Ccring c) h bits v bits2 w2 ->
  (forall b, bits2 b = bits1 b) /\ forall i, (i < 2 ^ SimModel.num_qubits Ccring c)%N -> w2 i = w1 i.
Proof. intros (Hnd & _ & Hwf) v bits1 w1 bits2 w2 H1 H2. exact (branch_fun c Hnd _ _ _ _ _ _ H1 _ _ v Hwf (fun _ _ => eq_refl) H2). Qed.

Section Program.
Variable ptrue : R -> bool.
Variable peqb : R -> R -> bool.
Variable extra : list cls.
Variable p : sprog.
Variable s : session.
Variable c : nat.
Variable x : circ.
Hypothesis He : sexecutes ptrue peqb (own_ok R) p (begin (library_classes ++ extra)%list).
Hypothesis Hv : svisits ptrue peqb p (begin (library_classes ++ extra)%list) s.
Hypothesis Hsm : small R (s_w s).
Hypothesis Hc : nth_error (w_circ (s_w s)) c = Some x.
Hypothesis Hrd : forall o y, In o (c_ops x) -> nth_error (w_op (s_w s)) o = Some y -> ready (s_w s) x o y.
Let n := List.length (circuit_qubits x).
Hypothesis Hn1 : 1 <= n.
Hypothesis Hn30 : n <= 30.

Theorem session_branches : exists sc, seen (s_w s) c = Some sc /\ circuit_qubits x = map IQubit (sc_qubits Ccring sc) /\
  Forall2 (shown (s_w s)) (c_ops x) (sc_ops Ccring sc) /\
  let possible h bits w := branch sc (sc_ops Ccring sc) h (bit_value R (s_w s)) (zero_state Ccring) bits w in
  (exists l : list (list bool * R), NoDup (map fst l) /\ (forall h, In h (map fst l) <-> exists bits w, possible h bits w) /\
     (forall h q, In (h, q) l -> forall bits w, possible h bits w -> q = weight (N.of_nat n) w) /\ Rsum l snd = 1%R) /\
  exists B : list bool -> box,
    (forall h bits w, possible h bits w ->
       List.length (B h) = List.length h /\ in_unit (B h) /\ volume (B h) = weight (N.of_nat n) w /\
       forall rnd, (forall k, uniform (rnd k)) -> inside (map rnd (seq 0 (List.length h))) (B h) ->
         (0 < weight (N.of_nat n) w)%R /\ exists s' a, sim c false false rnd s = (s', Ok tt) /\
           s_st s' c = mkCst (Some (mkArr [2 ^ N.of_nat n]%N a)) None /\
           (forall b, b < List.length (w_bit (s_w s)) -> bit_value R (s_w s') b = bits b) /\
           forall i, (i < 2 ^ N.of_nat n)%N -> a i = scaled (N.of_nat n) w i) /\
    (forall rnd, (forall k, uniform (rnd k)) -> exists h bits w, possible h bits w /\
       inside (map rnd (seq 0 (List.length h))) (B h) /\
       forall h' bits' w', possible h' bits' w' -> inside (map rnd (seq 0 (List.length h'))) (B h') -> h' = h).
Proof.
  destruct (session_run ptrue peqb extra p s c x He Hv Hsm Hc Hrd Hn1 Hn30) as (sc & Es & En & Eq & Ef & Ew & Eu & Hrun).
  exists sc. split; [exact Es|]. split; [exact Eq|]. split; [exact Ef|]. intros possible. fold n in En.
  assert (L30 : (SimModel.num_qubits Ccring sc <= 30)%N) by (rewrite En; lia).
  pose proof (simulate_total sc (bit_value R (s_w s)) Ew Eu) as T. cbv zeta in T. rewrite En in T. split; [exact T|]. clear T.
  pose proof Ew as (End & _ & Ewf).
  destruct (boxes sc End L30 (sc_ops Ccring sc)) with (bits := bit_value R (s_w s)) (v := zero_state Ccring) as (B & B1 & B2); [auto|apply zero_normalised|].
  exists B. split; [|intros rnd Hr; apply (B2 rnd 0 Hr)].
  intros h bits w H. destruct (B1 h bits w H) as (C1 & C2 & C3 & C4). rewrite En in C3. split; [exact C1|]. split; [exact C2|]. split; [exact C3|].
  intros rnd Hr Hi. destruct (C4 rnd (found s) (zero_state Ccring) Hr (fun _ => eq_refl) (fun _ _ => eq_refl) Hi) as (D1 & m' & a & D2 & D3 & D4 & D5).
  rewrite En in D1, D5. split; [exact D1|]. destruct (Hrun rnd Hr) as (m2 & a2 & E2 & Esim). rewrite D2 in E2. injection E2 as <- <-.
  eexists _, a. split; [exact Esim|]. cbn [s_st s_w]. split; [unfold set_at; now rewrite Nat.eqb_refl|]. split; [|exact D5].
  intros b Hb. rewrite put_value; [apply D3|]. now rewrite qubits_bits.
Qed.
End Program.

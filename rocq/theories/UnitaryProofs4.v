(** build_unitary against the simulator. *)
From Coq Require Import List NArith ZArith Bool Lia Reals.
From Verif Require Import Py CRing Cplx KernelModel KernelSpec SimModel SimSpec SimReal SimProofs SimProofs2 UnitaryModel UnitarySpec
  UnitaryProofs UnitaryProofs2 UnitaryProofs3 GateModel GateProofs.
Import ListNotations.
Local Open Scope N_scope.

Section R.
Variable K : cring.
Add Ring KringU4 : (r_theory K).

Theorem build_unitary_simulates (U : Type) (gtb : K -> U -> bool) (is0 : K -> bool) (invsqrt : K -> K)
  (rnd : nat -> U) (c : scirc K) (xs : list (uop K)) (m : SimModel.mem K) :
  wf_circ c -> Forall2 seen_as (sc_ops K c) xs -> (forall o, In o (sc_ops K c) -> so_cond K o = []) ->
  num_qubits K c <= 30 ->
  exists M s, build_unitary K (sc_qubits K c) xs = Ok M /\
    simulate K U gtb is0 invsqrt rnd c false false m = (m, Ok (SVec K s)) /\
    (forall i, i < 2 ^ num_qubits K c -> M i 0 = s i) /\
    forall v, exists w, runs false c (m_bits K m) (sc_ops K c) v w /\
      forall i, i < 2 ^ num_qubits K c -> mat_vec (num_qubits K c) M v i = w i.
Proof.
  intros Hwf HF Hc Hn.
  assert (Hm : measurement_free c).
  { intros o Ho. clear -HF Ho. induction HF as [|o' x ops xs H _ IH]; [destruct Ho|].
    destruct Ho as [->|Ho]; [|auto]. unfold seen_as in H. destruct (so_kind K o); try reflexivity. destruct x; contradiction. }
  destruct (build_unitary_runs K c (m_bits K m) xs Hwf HF Hc) as (M & EM & HM).
  destruct (simulate_runs K U gtb is0 invsqrt rnd c false m Hwf Hm Hn) as (s & Es & Hs).
  exists M, s. split; [exact EM|]. split; [exact Es|]. split.
  - intros i Hi. rewrite <- (HM _ _ Hs i Hi). unfold mat_vec. rewrite (sumf_single K _ _ 0).
    + unfold zero_state. cbn [N.eqb]. ring.
    + apply NoDup_Nrange.
    + apply In_Nrange. apply N.neq_0_lt_0, N.pow_nonzero. lia.
    + intros j _ Hj. unfold zero_state. destruct (N.eqb_spec j 0); [contradiction|]. ring.
  - intros v. destruct Hwf as (_ & _ & Hw).
    destruct (run_pure_runs K U gtb is0 invsqrt rnd c false (sc_ops K c) m Hn (fun o Ho => conj (Hw o Ho) (Hm o Ho)) v)
      as (w & _ & Hr). exists w. split; [exact Hr|]. exact (HM v w Hr).
Qed.

End R.

Theorem crx_no_unitary :
  exists c : scirc Ccring, wf_circ c /\ sc_ops Ccring c = [mkSop Ccring (gate_kind (GC (GRX 1%R))) (Some [0; 1]%nat) []] /\
    (forall rnd m, exists w, simulate_C rnd c false false m = (m, Ok (SVec Ccring w))) /\
    build_unitary Ccring (sc_qubits Ccring c) [UControlled Ccring 2 None [0%nat] [1%nat]] = Err TypeError.
Proof.
  exists (mkScirc Ccring [0; 1]%nat [mkSop Ccring (gate_kind (GC (GRX 1%R))) (Some [0; 1]%nat) []]).
  assert (Hwf : wf_circ (mkScirc Ccring [0; 1]%nat [mkSop Ccring (gate_kind (GC (GRX 1%R))) (Some [0; 1]%nat) []])).
  { split; [repeat constructor; simpl; intuition discriminate|]. split; [discriminate|].
    intros o [<-|[]]. exists [0; 1]%nat. split; [reflexivity|]. split; [intros q Hq; exact Hq|].
    split; [intros _; repeat constructor; simpl; intuition discriminate|].
    split; [intros k Hk; injection Hk as <-; reflexivity|]. cbn. auto. }
  split; [exact Hwf|]. split; [reflexivity|]. split; [|reflexivity].
  intros rnd m. destruct (simulate_runs Ccring R Cgtb Cis0 Cinvsqrt rnd _ false m Hwf) as (w & E & _).
  - intros o [<-|[]]. reflexivity.
  - discriminate.
  - exists w. exact E.
Qed.

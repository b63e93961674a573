(** C87 for programs. *)
From Coq Require Import List NArith ZArith Arith String Bool Lia Reals Lra.
From Verif Require Import Py CRing Cplx KernelSpec SimModel SimSpec SimReal SimProofs2 MeasureSpec SampleSpec UnitarySpec CallSpec GateModel StateModel RegisterModel
  WorldModel WorldSpec WorldSpec4 WorldCheck LinkModel LinkSpec PropsLink SessionModel SessionSpec RewriteSpec InverseSpec.
From Verif Require RewriteProofs4 InverseProofs BornProofs.
Import ListNotations.
Local Open Scope N_scope.

Theorem session_inverse ptrue peqb extra p s c d x y sc P A S qs cond :
  sexecutes ptrue peqb (own_ok R) p (begin (library_classes ++ extra)%list) -> svisits ptrue peqb p (begin (library_classes ++ extra)%list) s -> small R (s_w s) ->
  nth_error (w_circ (s_w s)) c = Some x -> nth_error (w_circ (s_w s)) d = Some y ->
  (forall o t, In o (c_ops x) -> nth_error (w_op (s_w s)) o = Some t -> ready (s_w s) x o t) ->
  (forall o t, In o (c_ops y) -> nth_error (w_op (s_w s)) o = Some t -> ready (s_w s) y o t) ->
  let n := List.length (circuit_qubits x) in (1 <= n)%nat -> (n <= 30)%nat -> List.length (circuit_qubits y) = n ->
  seen (s_w s) c = Some sc -> seen (s_w s) d = Some (mkScirc Ccring (sc_qubits Ccring sc) (P ++ S)) ->
  sc_ops Ccring sc = P ++ map (on qs cond) (A ++ inverse A) ++ S -> picked (List.length qs) A -> NoDup qs -> incl qs (sc_qubits Ccring sc) ->
  forall rnd, (forall k, uniform (rnd k)) -> exists s1 s2 a a' z, sim c false false rnd s = (s1, Ok tt) /\ sim d false false rnd s = (s2, Ok tt) /\
    s_st s1 c = mkCst (Some (mkArr [2 ^ N.of_nat n]%N a)) None /\ s_st s2 d = mkCst (Some (mkArr [2 ^ N.of_nat n]%N a')) None /\
    (forall b, (b < List.length (w_bit (s_w s)))%nat -> bit_value R (s_w s2) b = bit_value R (s_w s1) b) /\ phased (N.of_nat n) z a a'.
Proof.
  intros He Hv Hs Hx Hy Rx Ry n N1 N2 Hl Sc Sd Ho HA Hqs Hin.
  destruct (BornProofs.session_run ptrue peqb extra p s c x He Hv Hs Hx Rx N1 N2) as (sc' & Es & _ & _ & _ & Hw & _). rewrite Sc in Es. injection Es as <-.
  apply (RewriteProofs4.session_rewritten ptrue peqb extra p s He Hv Hs c d x y sc (mkScirc Ccring (sc_qubits Ccring sc) (P ++ S))); auto.
  exact (proj2 (InverseProofs.inverse_removed sc P A S qs cond Hw Ho HA Hqs Hin)).
Qed.

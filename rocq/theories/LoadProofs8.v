(** Loading a module. *)
From Coq Require Import List ZArith String Bool Arith Lia.
From Verif Require Import Py QirModel QirSpec LinkModel RegisterModel RegisterSpec RegisterProofs WorldModel WorldSpec WorldSpec4 WorldReg WorldInv WorldInv2 WorldInv3 WorldInv4 WorldInv5 WorldInv6 WorldInv7 WorldWf2 WorldOps ExportSpec LoadModel LoadSpec LoadProofs LoadProofs2 LoadProofs3 LoadProofs4 LoadProofs5 LoadProofs6 LoadProofs7.
Import ListNotations.
Local Open Scope nat_scope.

Section Steps.
Variable P : Type.
Variable ptrue : P -> bool.
Variable peqb : P -> P -> bool.
Variable more : list cls.
Notation world := (world P).
Notation M := (WorldModel.M P).
Notation ended := (ended P ptrue peqb more).

(** ** Blocks and functions *)
Fixpoint load_calls (c : nat) (ks : list (QirModel.call P)) (ms : list nat * list nat) : M (list nat * list nat) :=
  match ks with [] => ret ms | k :: ks' => let! ms' := load_one P ptrue c k ms in load_calls c ks' ms' end.
Fixpoint returns (l : list (instr P)) : bool := match l with [] => false | IRet _ :: _ => true | _ :: l' => returns l' end.

Lemma calls_app c a : forall b ms w, load_calls c (a ++ b) ms w = (let! ms' := load_calls c a ms in load_calls c b ms') w.
Proof.
  induction a as [|k a IH]; intros b ms w; cbn; [reflexivity|]. unfold mbind. destruct (load_one P ptrue c k ms w) as [w1 [ms1|e]]; [|reflexivity]. rewrite IH. reflexivity.
Qed.
Lemma block_calls c l : forall ms w, load_block P ptrue c l ms w = (let! ms' := load_calls c (until_return P l) ms in ret (ms', returns l)) w.
Proof.
  induction l as [|[k| |] l IH]; intros ms w; cbn; try reflexivity; [|apply IH].
  unfold mbind. destruct (load_one P ptrue c k ms w) as [w1 [ms1|e]]; [|reflexivity]. rewrite IH. reflexivity.
Qed.
Lemma until_app a b : until_return P (a ++ b) = if returns a then until_return P a else until_return P a ++ until_return P b.
Proof. induction a as [|[k| |] a IH]; cbn; try reflexivity; rewrite IH; destruct (returns a); reflexivity. Qed.
Lemma func_calls c f : forall ms w, load_func P ptrue c f ms w = load_calls c (until_return P (List.concat f)) ms w.
Proof.
  induction f as [|b f IH]; intros ms w; [reflexivity|]. cbn [load_func List.concat]. rewrite until_app. unfold mbind at 1. rewrite block_calls. unfold mbind.
  destruct (returns b).
  - destruct (load_calls c (until_return P b) ms w) as [w1 [ms1|e]]; reflexivity.
  - rewrite calls_app. unfold mbind. destruct (load_calls c (until_return P b) ms w) as [w1 [ms1|e]]; [|reflexivity]. apply IH.
Qed.
Lemma funcs_calls c fs : forall ms w, load_funcs P ptrue c fs ms w = load_calls c (calls_read P fs) ms w.
Proof.
  induction fs as [|f fs IH]; intros ms w; [reflexivity|]. cbn [load_funcs]. unfold calls_read. cbn [map List.concat]. rewrite calls_app. unfold mbind. rewrite func_calls.
  destruct (load_calls c (until_return P (List.concat f)) ms w) as [w1 [ms1|e]]; [|reflexivity]. apply IH.
Qed.

(** ** The functions' names *)
Lemma dget_In u (t : list (string * string)) n : dget String.eqb u t = Some n -> In (u, n) t.
Proof.
  induction t as [|[a b] t IH]; cbn; [discriminate|]. destruct (String.eqb_spec u a); [intros [= <-]; left; congruence|auto].
Qed.
Definition flip (t : list (string * string)) := map (fun q => (snd q, fst q)) t.
Lemma read_names u n : dget String.eqb u from_qis = Some n -> In (n, u) read_as.
Proof.
  intros H. apply dget_In in H. assert (F : Forall (fun q => In (snd q, fst q) read_as) from_qis).
  { let t := eval vm_compute in from_qis in change from_qis with t. repeat (constructor; [cbn; tauto|]). constructor. }
  rewrite Forall_forall in F. exact (F (u, n) H).
Qed.
Lemma names_read u n : In (n, u) read_as -> is_qis u = true /\ dget String.eqb u from_qis = Some n.
Proof.
  intros H. assert (F : Forall (fun q => is_qis (snd q) = true /\ dget String.eqb (snd q) from_qis = Some (fst q)) read_as).
  { unfold read_as, function_of. cbn [app]. repeat (constructor; [split; vm_compute; reflexivity|]). constructor. }
  rewrite Forall_forall in F. exact (F (n, u) H).
Qed.
Lemma decon args : deconstruct P args = (doubles P args, places P args, results P args).
Proof. induction args as [|[d|i|i] args IH]; cbn; [reflexivity| | |]; rewrite IH; reflexivity. Qed.

(** ** The calls *)
Definition needed (gs : list (gate P)) : nat := fold_right (fun g m => Nat.max (S (maxi (snd g))) m) 0 gs.
Definition wide (N : nat) (k : QirModel.call P) : Prop := let (_, args) := k in S (maxi (places P args)) <= N.

Variable c : nat.

Lemma calls_step w0 ks gs mq mb e : asks P w0 ks gs mq mb e -> forall w x ms N, w_cls w = w_cls w0 -> ended w -> idle P w c x ->
  Forall (wide N) ks -> fits (c_q x) \/ N <= List.length (circuit_qubits x) ->
  ssize_ok (zn (List.length (w_qubit w) + (N - List.length (circuit_qubits x)) + N) + 1) = true -> ssize_ok (zn (List.length (w_bit w)) + 1) = true ->
  exists w' x' os, load_calls c ks ms w = (w', match e with None => Ok (fst ms ++ mq, snd ms ++ mb) | Some e => Err e end) /\
    ended w' /\ idle P w' c x' /\ loaded P c w x w' x' os /\ Forall2 (holds_gate P w' x') gs os /\
    s_regs (c_b x') = s_regs (c_b x) /\ w_bit w' = w_bit w /\ List.length (circuit_qubits x') <= Nat.max (List.length (circuit_qubits x)) N /\
    (e = None -> List.length (circuit_qubits x') = Nat.max (List.length (circuit_qubits x)) (needed gs)).
Proof.
  induction 1 as [|u args ks gs mq mb e Hu A IH|u args ks Hu Hn|u args ks gs mq mb e Hu A IH|u args ks n kx e Hu Hm Nc Ref|u args ks n kx gs mq mb e Hu Hm Nc Ref A IH]; intros w x ms N Hw E I W F S1 S2.
  - exists w, x, []. cbn [load_calls]. rewrite !app_nil_r. cbn [needed fold_right]. rewrite Nat.max_0_r. destruct ms. repeat (split; [now auto using loaded_refl|]). split; [lia|auto].
  - assert (O : load_one P ptrue c (Call P u args) ms w = (w, Ok ms)) by (unfold load_one; now rewrite Hu).
    inversion W; subst. destruct (IH w x ms N) as (w' & x' & os & R & G); auto. exists w', x', os. cbn [load_calls]. rewrite (bind_ok _ _ _ _ _ _ O). auto.
  - assert (O : load_one P ptrue c (Call P u args) ms w = (w, Err TypeError)).
    { unfold load_one. rewrite Hu. cbn [negb]. destruct (dget String.eqb u from_qis) as [n|] eqn:D; [|reflexivity]. exfalso. exact (Hn n (read_names u n D)). }
    exists w, x, []. cbn [load_calls]. rewrite (bind_err _ _ _ _ _ _ O). repeat (split; [now auto using loaded_refl|]). split; [lia|discriminate].
  - destruct (names_read u _ Hu) as [Q D].
    assert (O : load_one P ptrue c (Call P u args) ms w = (w, Ok (fst ms ++ places P args, snd ms ++ results P args))).
    { unfold load_one. rewrite Q, D, decon. reflexivity. }
    inversion W; subst. destruct (IH w x (fst ms ++ places P args, snd ms ++ results P args) N) as (w' & x' & os & R & G); auto. exists w', x', os. cbn [load_calls]. rewrite (bind_ok _ _ _ _ _ _ O), R. cbn [fst snd]. rewrite !app_assoc. auto.
  - destruct (names_read u _ Hu) as [Q D]. assert (Wa : wide N (Call P u args)) by now inversion W. cbn [wide] in Wa.
    destruct (gate_step P ptrue peqb more c w x n (doubles P args) (places P args) kx E I) as (w1 & x1 & os & r & R & E1 & I1 & L1 & _ & B1 & W1 & N1 & Res); auto.
    { destruct Nc as (k & y & Nc). exists k, y. now rewrite Hw. }
    { destruct F as [F|F]; [auto|right; lia]. }
    { unfold ssize_ok in *. apply andb_true_iff in S1. rewrite andb_true_iff, !Z.leb_le, !Z.ltb_lt in *. lia. }
    rewrite Ref in Res. destruct Res as [-> ->].
    assert (O : load_one P ptrue c (Call P u args) ms w = (w1, Err e)).
    { unfold load_one. rewrite Q, D, decon. cbn [negb]. destruct (String.eqb_spec n "Measurement"); [contradiction|]. exact (bind_err _ _ _ _ _ _ R). }
    exists w1, x1, []. cbn [load_calls]. rewrite (bind_err _ _ _ _ _ _ O). split; [reflexivity|]. split; [exact E1|]. split; [exact I1|]. split; [exact L1|]. split; [constructor|]. split; [exact B1|]. split; [exact W1|]. split; [lia|discriminate].
  - destruct (names_read u _ Hu) as [Q D]. assert (Wa : wide N (Call P u args) /\ Forall (wide N) ks) by now inversion W. cbn [wide] in Wa. destruct Wa as [Wa Wk].
    destruct (gate_step P ptrue peqb more c w x n (doubles P args) (places P args) kx E I) as (w1 & x1 & os1 & r & R & E1 & I1 & L1 & F1 & B1 & W1 & N1 & Res); auto.
    { destruct Nc as (k & y & Nc). exists k, y. now rewrite Hw. }
    { destruct F as [F|F]; [auto|right; lia]. }
    { unfold ssize_ok in *. apply andb_true_iff in S1. rewrite andb_true_iff, !Z.leb_le, !Z.ltb_lt in *. lia. }
    rewrite Ref in Res. destruct Res as (-> & o & -> & Ho).
    assert (O : load_one P ptrue c (Call P u args) ms w = (w1, Ok ms)).
    { unfold load_one. rewrite Q, D, decon. cbn [negb]. destruct (String.eqb_spec n "Measurement"); [contradiction|]. rewrite (bind_ok _ _ _ _ _ _ R). reflexivity. }
    assert (Grow : List.length (w_qubit w1) + List.length (circuit_qubits x) = List.length (w_qubit w) + List.length (circuit_qubits x1)).
    { destruct L1 as [_ _ (ls & H1 & H2) _ _ _ _ _ _ _]. rewrite H1, H2, !app_length, map_length, seq_length. lia. }
    destruct (IH w1 x1 ms N) as (w' & x' & os & R' & E' & I' & L' & G' & B' & W' & N' & K'); auto.
    { rewrite (ld_cls _ _ _ _ _ _ _ L1). exact Hw. }
    { destruct F as [F|F]; [auto|right; lia]. }
    { unfold ssize_ok in *. apply andb_true_iff in S1. rewrite andb_true_iff, !Z.leb_le, !Z.ltb_lt in *. lia. }
    { now rewrite W1. }
    exists w', x', (o :: os). cbn [load_calls]. rewrite (bind_ok _ _ _ _ _ _ O), R'. split; [reflexivity|]. split; [exact E'|]. split; [exact I'|].
    split; [exact (loaded_trans P c _ _ _ _ _ _ [o] os L1 L')|]. split; [constructor; [exact (holds_gate_mono P c _ _ _ _ _ _ _ L' Ho)|exact G']|].
    split; [congruence|]. split; [congruence|]. split; [lia|]. intros He. rewrite (K' He), N1. cbn [needed fold_right snd]. fold (needed gs). lia.
Qed.
End Steps.

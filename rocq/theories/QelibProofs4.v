(** Proof that every gate name that is written means the gate, in every file of definitions that extends qelib1.inc. *)
From Coq Require Import List String Bool Arith NArith Ascii Reals Lra Lia Ring.
From Verif Require Import Py CRing Cplx KernelSpec SimModel SimSpec GateModel LinkSpec QasmSpec QelibSpec QelibProofs QelibProofs2 QelibProofs3.
Import ListNotations.
Local Open Scope string_scope.
Local Open Scope list_scope.

(** ** Files *)
Lemma meaning_skip pre D name ps qs : ~ In name (map d_name pre) -> meaning (pre ++ D) name ps qs = meaning D name ps qs.
Proof.
  induction pre as [|d pre IH]; intros H; [reflexivity|]. cbn [app meaning].
  destruct (String.eqb_spec name (d_name d)) as [->|_]; [destruct H; now left|]. apply IH. intros Hi. apply H. now right.
Qed.
Lemma all_ext {A B} (f g : A -> option B) l : (forall x, In x l -> f x = g x) -> all f l = all g l.
Proof.
  induction l as [|x l IH]; intros H; [reflexivity|]. cbn. rewrite (H x) by now left. rewrite IH; [reflexivity|]. intros; apply H; now right.
Qed.
Lemma meaning_body d e D ps qs : (forall n es ks, In (n, es, ks) (d_body d) -> ~ In n (map d_name e)) ->
  meaning (d :: e ++ D) (d_name d) ps qs = meaning (d :: D) (d_name d) ps qs.
Proof.
  intros H. cbn [meaning]. rewrite String.eqb_refl. destruct (_ && _)%bool; [|reflexivity]. f_equal. apply all_ext.
  intros [[n es] ks] Hin. destruct (all (eval ps) es); [|reflexivity]. destruct (all (nth_error qs) ks); [|reflexivity].
  apply meaning_skip. exact (H _ _ _ Hin).
Qed.

Lemma known_names e : incl e known -> forall n, In n (map d_name e) -> In n ["crx"; "cry"; "swap"; "cswap"; "rot"].
Proof.
  intros H n Hn. apply in_map_iff in Hn as (d & <- & Hd). apply H in Hd. cbn in Hd.
  repeat destruct Hd as [<-|Hd]; cbn; tauto.
Qed.
Lemma base_meaning D name ps qs : file D -> ~ In name ["crx"; "cry"; "swap"; "cswap"; "rot"] -> meaning D name ps qs = meaning qelib1 name ps qs.
Proof. intros (e & -> & He & _) H. apply meaning_skip. intros Hi. apply H. exact (known_names e He _ Hi). Qed.
Lemma known_bodies d : In d known -> forall n es ks, In (n, es, ks) (d_body d) -> ~ In n ["crx"; "cry"; "swap"; "cswap"; "rot"].
Proof.
  intros H n es ks Hi Hn. cbn in H.
  repeat destruct H as [<-|H]; try destruct H; cbn in Hi; repeat destruct Hi as [[= <- _ _]|Hi]; try destruct Hi; cbn in Hn; intuition discriminate.
Qed.
Lemma known_meaning D name ps qs : file D -> In name ["crx"; "cry"; "swap"; "cswap"; "rot"] -> In name (map d_name D) ->
  exists d, In d known /\ d_name d = name /\ meaning D name ps qs = meaning (d :: qelib1) name ps qs.
Proof.
  intros (e & -> & He & Hn) Hk Hin. rewrite map_app in Hin. apply in_app_or in Hin as [Hin|Hin].
  - apply in_map_iff in Hin as (d & <- & Hd). exists d. split; [now apply He|]. split; [reflexivity|].
    apply in_split in Hd as (e1 & e2 & ->). rewrite <- app_assoc. cbn [app]. rewrite meaning_skip.
    + apply meaning_body. intros n es ks Hb Hi. apply (known_bodies d (He d ltac:(apply in_or_app; right; now left)) n es ks Hb).
      apply (known_names e2); [|exact Hi]. intros y Hy. apply He. apply in_or_app. right. now right.
    + rewrite map_app in Hn. cbn in Hn. apply NoDup_remove_2 in Hn. intros Hi. apply Hn. apply in_or_app. now left.
  - exfalso. cbn in Hk. repeat destruct Hk as [<-|Hk]; try destruct Hk; cbn in Hin; intuition discriminate.
Qed.

(** ** The gates *)
Local Open Scope N_scope.
Ltac pos ts q := match ts with q :: _ => constr:(O) | _ :: ?r => let k := pos r q in constr:(S k) end.
Ltac to_steps ts ps :=
  match ps with
  | nil => constr:(@nil step)
  | PU ?a ?b ?c ?q :: ?l => let k := pos ts q in let r := to_steps ts l in constr:(SU a b c k :: r)
  | PCX ?c ?t :: ?l => let j := pos ts c in let k := pos ts t in let r := to_steps ts l in constr:(SX j k :: r)
  end.
Ltac one_like :=
  match goal with
  | |- like _ [SX _ _] _ => apply like_cx
  | |- like _ [SU (PI / 2)%R 0%R PI _] _ => apply like_h; [cbn; lia|reflexivity..]
  | |- like _ [SU PI 0%R PI _] _ => apply like_x; [cbn; lia|reflexivity..]
  | |- like _ [SU 0%R 0%R _ _] _ => eapply like_d; [cbn; lia|reflexivity..]
  | |- like _ [SU _ 0%R 0%R _] _ => eapply like_y; [cbn; lia|reflexivity..]
  | |- like _ [SU _ _ _ _] _ => apply like_u; cbn; lia
  end.
Lemma like_eq m ss ns ns' : like m ss ns -> ns = ns' -> like m ss ns'.
Proof. intros H <-. exact H. Qed.
Ltac likes := first [apply like_nil|eapply like_cons; [one_like|likes]].
Lemma acts' le n g ts prims ss ns : NoDup ts -> (forall t, In t ts -> t < n) -> List.length ts = arity g ->
  Forall2 (at_places ts) prims ss -> like (arity g) ss ns -> amounts g ns ->
  up_to_phase n (run le n prims) (@gate_action Ccring le n (gate_kind g) ts).
Proof. intros Hd Hl Ha Hp Hk (z & Hz & E). eapply acts; eassumption. Qed.
Ltac gate ts prims lem :=
  let ss := to_steps ts prims in
  exists prims; split; [reflexivity|];
  eapply (acts' _ _ _ ts prims ss);
  [assumption|assumption|reflexivity| |eapply like_eq; [likes|reflexivity]|exact lem];
  repeat first [apply Forall2_nil|apply Forall2_cons; [cbn [at_places nth_error]; repeat split; discriminate|]].

Definition does_gate (D : list gdef) (name : string) (ps : list R) (g : gate) : Prop :=
  forall le n ts, List.length ts = arity g -> NoDup ts -> (forall t, In t ts -> t < n) ->
    exists prims, meaning D name ps ts = Some prims /\ up_to_phase n (run le n prims) (@gate_action Ccring le n (gate_kind g) ts).
Ltac start1 t := intros le n ts Ha Hd Hl; destruct ts as [|t [|? ?]]; try discriminate Ha.
Ltac start2 a b := intros le n ts Ha Hd Hl; destruct ts as [|a [|b [|? ?]]]; try discriminate Ha.
Ltac start3 a b c := intros le n ts Ha Hd Hl; destruct ts as [|a [|b [|c [|? ?]]]]; try discriminate Ha.

Lemma q_id : does_gate qelib1 "id" [] (GOne GIdentity).
Proof. start1 t. gate [t] [PU 0 0 0 t] do_id. Qed.
Lemma q_x : does_gate qelib1 "x" [] (GOne GX).
Proof. start1 t. gate [t] [PU PI 0 PI t] do_x. Qed.
Lemma q_y : does_gate qelib1 "y" [] (GOne GY).
Proof. start1 t. gate [t] [PU PI (PI / 2) (PI / 2) t] do_y. Qed.
Lemma q_z : does_gate qelib1 "z" [] (GOne GZ).
Proof. start1 t. gate [t] [PU 0 0 PI t] do_z. Qed.
Lemma q_h : does_gate qelib1 "h" [] (GOne GHadamard).
Proof. start1 t. gate [t] [PU (PI / 2) 0 PI t] do_h. Qed.
Lemma q_s : does_gate qelib1 "s" [] (GOne GS).
Proof. start1 t. gate [t] [PU 0 0 (PI / 2) t] do_s. Qed.
Lemma q_t : does_gate qelib1 "t" [] (GOne GT).
Proof. start1 t. gate [t] [PU 0 0 (PI / 4) t] do_t. Qed.
Lemma q_rx a : does_gate qelib1 "rx" [a] (GOne (GRX a)).
Proof. start1 t. gate [t] [PU a (- (PI / 2)) (PI / 2) t] (do_rx a). Qed.
Lemma q_ry a : does_gate qelib1 "ry" [a] (GOne (GRY a)).
Proof. start1 t. gate [t] [PU a 0 0 t] (do_ry a). Qed.
Lemma q_rz a : does_gate qelib1 "rz" [a] (GOne (GRZ a)).
Proof. start1 t. gate [t] [PU 0 0 a t] (do_rz a). Qed.
Lemma q_cx : does_gate qelib1 "cx" [] (GC GX).
Proof. start2 a b. gate [a; b] [PCX a b] do_cx. Qed.
Lemma q_cy : does_gate qelib1 "cy" [] (GC GY).
Proof. start2 a b. gate [a; b] [PU 0 0 (- (PI / 2)) b; PCX a b; PU 0 0 (PI / 2) b] do_cy. Qed.
Lemma q_cz : does_gate qelib1 "cz" [] (GC GZ).
Proof. start2 a b. gate [a; b] [PU (PI / 2) 0 PI b; PCX a b; PU (PI / 2) 0 PI b] do_cz. Qed.
Lemma q_ch : does_gate qelib1 "ch" [] (GC GHadamard).
Proof.
  start2 a b. gate [a; b]
    [PU (PI / 2) 0 PI b; PU 0 0 (- (PI / 2)) b; PCX a b; PU (PI / 2) 0 PI b; PU 0 0 (PI / 4) b; PCX a b; PU 0 0 (PI / 4) b;
     PU (PI / 2) 0 PI b; PU 0 0 (PI / 2) b; PU PI 0 PI b; PU 0 0 (PI / 2) a] do_ch.
Qed.
Lemma q_crz t : does_gate qelib1 "crz" [t] (GC (GRZ t)).
Proof. start2 a b. gate [a; b] [PU 0 0 (t / 2) b; PCX a b; PU 0 0 (- (t / 2)) b; PCX a b] (do_crz t). Qed.
Lemma q_ccx : does_gate qelib1 "ccx" [] GCCX.
Proof.
  start3 a b c. gate [a; b; c]
    [PU (PI / 2) 0 PI c; PCX b c; PU 0 0 (- (PI / 4)) c; PCX a c; PU 0 0 (PI / 4) c; PCX b c; PU 0 0 (- (PI / 4)) c; PCX a c;
     PU 0 0 (PI / 4) b; PU 0 0 (PI / 4) c; PU (PI / 2) 0 PI c; PCX a b; PU 0 0 (PI / 4) a; PU 0 0 (- (PI / 4)) b; PCX a b] do_ccx.
Qed.
Lemma q_crx t : does_gate (crx_def :: qelib1) "crx" [t] (GC (GRX t)).
Proof.
  start2 a b. gate [a; b] [PU 0 0 (PI / 2) b; PCX a b; PU (- (t / 2)) 0 0 b; PCX a b; PU (t / 2) (- (PI / 2)) 0 b] (do_crx t).
Qed.
Lemma q_cry t : does_gate (cry_def :: qelib1) "cry" [t] (GC (GRY t)).
Proof. start2 a b. gate [a; b] [PU (t / 2) 0 0 b; PCX a b; PU (- (t / 2)) 0 0 b; PCX a b] (do_cry t). Qed.
Lemma q_swap : does_gate (swap_def :: qelib1) "swap" [] GSWAP.
Proof. start2 a b. gate [a; b] [PCX a b; PCX b a; PCX a b] do_swap. Qed.
Lemma q_swap' : does_gate (swap_decl :: qelib1) "swap" [] GSWAP.
Proof. start2 a b. gate [a; b] [PCX b a; PCX a b; PCX b a] do_swap'. Qed.
Lemma q_cswap : does_gate (cswap_def :: qelib1) "cswap" [] GCSWAP.
Proof.
  start3 a b c. gate [a; b; c]
    [PCX c b; PU (PI / 2) 0 PI c; PCX b c; PU 0 0 (- (PI / 4)) c; PCX a c; PU 0 0 (PI / 4) c; PCX b c; PU 0 0 (- (PI / 4)) c; PCX a c;
     PU 0 0 (PI / 4) b; PU 0 0 (PI / 4) c; PU (PI / 2) 0 PI c; PCX a b; PU 0 0 (PI / 4) a; PU 0 0 (- (PI / 4)) b; PCX a b; PCX c b] do_cswap.
Qed.
Lemma q_rot t u v : does_gate (rot_def :: qelib1) "rot" [t; u; v] (GOne (GRotation t u v)).
Proof. start1 a. gate [a] [PU 0 0 t a; PU u 0 0 a; PU 0 0 v a] (do_rot t u v). Qed.

Lemma gate_known D name ps g : file D -> In name ["crx"; "cry"; "swap"; "cswap"; "rot"] -> In name (map d_name D) ->
  (forall d, In d known -> d_name d = name -> does_gate (d :: qelib1) name ps g) -> does_gate D name ps g.
Proof.
  intros HD Hk Hin H le n ts Ha Hd Hl. destruct (known_meaning D name ps ts HD Hk Hin) as (d & H1 & H2 & ->).
  exact (H d H1 H2 le n ts Ha Hd Hl).
Qed.
Lemma gate_base D name ps g : file D -> ~ In name ["crx"; "cry"; "swap"; "cswap"; "rot"] -> does_gate qelib1 name ps g -> does_gate D name ps g.
Proof. intros HD Hk H le n ts Ha Hd Hl. rewrite (base_meaning D) by assumption. now apply H. Qed.

Opaque does_gate.
Theorem gate_written D cn ps g q np nq : file D -> stands cn ps g -> In (cn, (q, (np, nq))) qasm_names -> In q (map d_name D) ->
  does_gate D q ps g /\ nq = arity g /\ np = List.length ps.
Proof.
  intros HD Hs Hin Hq.
  assert (K : forall d, In d known -> d = crx_def \/ d = cry_def \/ d = swap_def \/ d = cswap_def \/ d = rot_def \/ d = swap_decl \/ d = cswap_decl)
    by (intros d Hd; cbn in Hd; intuition congruence).
  assert (B : forall name ps g, ~ In name ["crx"; "cry"; "swap"; "cswap"; "rot"] -> does_gate qelib1 name ps g -> does_gate D name ps g)
    by (intros; now apply gate_base).
  destruct Hs as [n1 ps g Hs|n1 ps g Hs| | |]; try destruct Hs; cbn in Hin; repeat destruct Hin as [Hin|Hin]; try discriminate Hin; try contradiction Hin;
  injection Hin as <- <- <-; (split; [|split; reflexivity]).
  all: first [apply B; [cbn; intuition discriminate|
                first [apply q_id|apply q_x|apply q_y|apply q_z|apply q_h|apply q_s|apply q_t|apply q_rx|apply q_ry|apply q_rz|
                       apply q_cx|apply q_cy|apply q_cz|apply q_ch|apply q_crz|apply q_ccx]]
             |apply gate_known; [exact HD|cbn; tauto|exact Hq|];
              intros d Hd Hn; destruct (K d Hd) as [->|[->|[->|[->|[->|[->| ->]]]]]]; try discriminate Hn;
              first [apply q_crx|apply q_cry|apply q_swap|apply q_swap'|apply q_cswap|apply q_rot]
             |exfalso; destruct HD as (e & -> & He & _); rewrite map_app in Hq; apply in_app_or in Hq as [Hq|Hq];
              [apply (known_names e He) in Hq; cbn in Hq; intuition discriminate|cbn in Hq; intuition discriminate]].
Qed.
Transparent does_gate.

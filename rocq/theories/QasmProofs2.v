(** What is read from the text of a circuit. *)
From Coq Require Import List String Bool Arith Ascii Lia.
From Verif Require Import Py QasmModel QasmSpec QasmProofs.
Import ListNotations.
Local Open Scope string_scope.
Local Open Scope list_scope.

Lemma mapM_each {A B} (f : A -> res B) : forall l r, mapM f l = Ok r -> Forall2 (fun x y => f x = Ok y) l r.
Proof.
  induction l as [|x l IH]; cbn; intros r H; [injection H as <-; constructor|]. unfold bind in H. destruct (f x) as [y|] eqn:E; [|discriminate]. destruct (mapM f l) as [r'|]; [|discriminate]. injection H as <-. constructor; auto.
Qed.
Lemma mapM_all {A B} (f : A -> res B) : forall l, Forall (fun x => exists y, f x = Ok y) l -> exists r, mapM f l = Ok r.
Proof. intros l H. induction H as [|x l (y & Hx) _ (r & IH)]; cbn; [eauto|]. unfold bind. rewrite Hx, IH. eauto. Qed.
Lemma index_nth q : forall l k, index_of q l = Some k -> nth_error l k = Some q.
Proof.
  induction l as [|x l IH]; cbn; [discriminate|]. intros k. destruct (Nat.eqb q x) eqn:E; [apply Nat.eqb_eq in E; intros [= <-]; now subst|].
  destruct (index_of q l) as [j|]; [|discriminate]. intros [= <-]. cbn. auto.
Qed.
Lemma index_in q : forall l, In q l -> exists k, index_of q l = Some k.
Proof. induction l as [|x l IH]; intros []; cbn; [subst; rewrite Nat.eqb_refl; eauto|]. destruct (Nat.eqb q x); [eauto|]. destruct (IH H) as (k & ->). cbn. eauto. Qed.
Lemma resolve_at : forall names regs i n r k q, List.length names = List.length regs -> NoDup names -> nth_error names i = Some n -> nth_error regs i = Some r -> nth_error r k = Some q ->
  exists p, resolve (combine names (map (@List.length nat) regs)) (n, k) = Some p /\ nth_error (List.concat regs) p = Some q.
Proof.
  induction names as [|m names IH]; intros [|s regs] i n r k q Hl Hn En Er Ek; try discriminate; [destruct i; discriminate|]. inversion Hn; subst. destruct i as [|i]; cbn in En, Er.
  - injection En as ->. injection Er as ->. cbn [combine map resolve fst snd List.concat]. rewrite String.eqb_refl. assert (k < List.length r) by (apply nth_error_Some; congruence). exists k. split; [now apply Nat.ltb_lt in H as ->|]. now rewrite nth_error_app1.
  - destruct (IH regs i n r k q) as (p & Hp & Eq); auto. cbn [combine map resolve fst snd List.concat]. assert (m <> n) by (intros ->; apply H1; eapply nth_error_In; eauto). apply String.eqb_neq in H. rewrite H. rewrite Hp. cbn [option_map]. exists (List.length s + p). split; [reflexivity|].
    rewrite nth_error_app2 by lia. now replace (List.length s + p - List.length s) with p by lia.
Qed.

Section QasmProofs2.
Variable P : Type.
Variable show : P -> string.
Variable L : Type.
Variable truthy : L -> bool.
Variable lstr : L -> string.
Notation aop := (aop P).
Notation acircuit := (acircuit P L).

(** ** Registers *)
Definition reg_names (k : string) (labels : bool) (rs : list (L * list nat)) : list string :=
  if labels then map (fun x => lstr (fst x)) rs
  else match rs with [_] => [k] | _ => map (fun i => (k ++ str i)%string) (seq 0 (List.length rs)) end.
Definition reg_line (kw : string) (x : string * nat) : string := (kw ++ " " ++ fst x ++ "[" ++ str (snd x) ++ "];")%string.
Definition sizes (rs : list (L * list nat)) : list nat := map (fun x => List.length (snd x)) rs.
Definition ok_labels (labels : bool) (rs : list (L * list nat)) : Prop := labels = true -> Forall (fun x => truthy (fst x) = true /\ word (lstr (fst x))) rs.
Lemma decl_is kw k labels i l n : (labels = true -> truthy l = true) ->
  reg_decl L truthy lstr kw k (if labels then Some l else None) i n =
  (kw ++ " " ++ (if labels then lstr l else k ++ match i with Some j => str j | None => "" end) ++ "[" ++ str n ++ "]")%string.
Proof. intros H. unfold reg_decl. destruct labels; [now rewrite H|]. now rewrite !sapp_assoc. Qed.
Lemma line_end kw x s : (((kw ++ " " ++ fst x ++ "[" ++ str (snd x) ++ "]") ++ ";" ++ nl ++ s) = (reg_line kw x ++ nl ++ s))%string.
Proof. unfold reg_line. rewrite ?sapp_assoc. cbn [append]. rewrite ?sapp_assoc. cbn [append]. rewrite ?sapp_assoc. reflexivity. Qed.
Lemma decls_at_lines kw k labels : forall rs i, (labels = true -> Forall (fun x => truthy (fst x) = true) rs) ->
  decls_at L truthy lstr kw k labels i rs =
  unlines (map (reg_line kw) (combine (if labels then map (fun x => lstr (fst x)) rs else map (fun i => (k ++ str i)%string) (seq i (List.length rs))) (sizes rs))).
Proof.
  induction rs as [|[l r] rs IH]; intros i H; [destruct labels; reflexivity|]. cbn [decls_at]. rewrite IH by (intros E; specialize (H E); now inversion H).
  rewrite decl_is by (intros E; specialize (H E); now inversion H).
  pose proof (line_end kw ((if labels then lstr l else k ++ str i)%string, List.length r)) as E. cbn [fst snd] in E. rewrite E. destruct labels; reflexivity.
Qed.
Lemma decls_lines kw k labels rs : ok_labels labels rs ->
  decls L truthy lstr kw k labels rs = unlines (map (reg_line kw) (combine (reg_names k labels rs) (sizes rs))).
Proof.
  intros H. assert (H' : labels = true -> Forall (fun x => truthy (fst x) = true) rs) by (intros E; eapply Forall_impl; [|exact (H E)]; intros ? []; assumption).
  unfold decls, reg_names. destruct rs as [|[l r] [|y rs]]; [destruct labels; reflexivity| |apply (decls_at_lines kw k labels _ 0 H')].
  rewrite decl_is by (intros E; specialize (H' E); now inversion H').
  pose proof (line_end kw ((if labels then lstr l else k)%string, List.length r) "") as E. cbn [fst snd] in E. destruct labels; rewrite ?sapp_nil in E; rewrite ?sapp_nil; cbn [map combine sizes fst snd unlines]; rewrite ?sapp_nil; exact E.
Qed.
Lemma names_length k labels rs : List.length (reg_names k labels rs) = List.length rs.
Proof. unfold reg_names. destruct labels; [apply map_length|]. destruct rs as [|x [|y rs]]; auto. now rewrite map_length, seq_length. Qed.
Lemma names_word k labels rs : word k -> ok_labels labels rs -> Forall word (reg_names k labels rs).
Proof.
  intros Hk H. unfold reg_names. destruct labels; [apply Forall_map; eapply Forall_impl; [|exact (H eq_refl)]; intros ? []; assumption|]. destruct rs as [|x [|y rs]]; [constructor|constructor; [exact Hk|constructor]|].
  apply Forall_map, Forall_forall. intros i _. destruct Hk as (Hf & Hk). split; [destruct k; [discriminate|reflexivity]|]. rewrite chars_app, Hk. apply str_word.
Qed.
Lemma numbered_nodup k : forall n i, NoDup (map (fun i => (k ++ str i)%string) (seq i n)).
Proof.
  assert (J : forall a b, (k ++ str a)%string = (k ++ str b)%string -> a = b). { intros a b H. apply str_inj. induction k as [|c k' IH]; [exact H|]. cbn in H. injection H as H. auto. }
  induction n as [|n IH]; intros i; cbn; constructor; auto. intros Hi. apply in_map_iff in Hi. destruct Hi as (j & E & Hj). apply J in E. apply in_seq in Hj. lia.
Qed.
Lemma names_nodup labels (q c : list (L * list nat)) : (labels = true -> NoDup (map (fun x => lstr (fst x)) (q ++ c))) -> NoDup (reg_names "q" labels q ++ reg_names "c" labels c).
Proof.
  unfold reg_names. destruct labels; [intros H; specialize (H eq_refl); now rewrite map_app in H|intros _].
  assert (N : forall k (rs : list (L * list nat)), NoDup (match rs with [_] => [k] | _ => map (fun i => (k ++ str i)%string) (seq 0 (List.length rs)) end)).
  { intros k [|x [|y rs]]; [constructor|repeat constructor; auto|apply numbered_nodup]. }
  assert (F : forall k (rs : list (L * list nat)) z, In z (match rs with [_] => [k] | _ => map (fun i => (k ++ str i)%string) (seq 0 (List.length rs)) end) -> exists r, z = (k ++ r)%string).
  { intros k rs z H. destruct rs as [|x [|y rs]]; [destruct H|destruct H as [<-|[]]; exists ""; now rewrite sapp_nil|]. apply in_map_iff in H. destruct H as (j & <- & _). eauto. }
  assert (D : forall A B : list string, NoDup A -> NoDup B -> (forall z, In z A -> In z B -> False) -> NoDup (A ++ B)).
  { induction A as [|a A IH]; intros B HA HB HD; [exact HB|]. inversion HA; subst. cbn. constructor; [|apply IH; auto; intros z; intros; eapply HD; [right|]; eauto]. intros Hi. apply in_app_or in Hi. destruct Hi as [Hi|Hi]; [contradiction|]. eapply HD; [left; reflexivity|exact Hi]. }
  apply D; auto. intros z H1 H2. apply F in H1, H2. destruct H1 as (r1 & ->), H2 as (r2 & H2). discriminate H2.
Qed.

(** ** Operands *)
Lemma find_reg_spec q : forall rs i j l k, find_reg L q i rs = Ok (j, l, k) -> exists d r, j = i + d /\ nth_error rs d = Some (l, r) /\ nth_error r k = Some q.
Proof.
  induction rs as [|[m s] rs IH]; intros i j l k; cbn; [discriminate|]. destruct (index_of q s) as [x|] eqn:E.
  - intros [= <- <- <-]. exists 0, s. split; [lia|]. split; [reflexivity|]. now apply index_nth.
  - intros H. destruct (IH _ _ _ _ H) as (d & r & -> & H1 & H2). exists (S d), r. split; [lia|]. auto.
Qed.
Lemma entry_spec labels (c : acircuit) q x n k : entry P L lstr labels c q = Ok (x, (n, k)) ->
  x = q /\ exists i r, nth_error (reg_names "q" labels (a_qregs P L c)) i = Some n /\ nth_error (map snd (a_qregs P L c)) i = Some r /\ nth_error r k = Some q.
Proof.
  unfold entry, bind. destruct (find_reg L q 0 (a_qregs P L c)) as [[[i l] j]|] eqn:E; [|discriminate]. intros [= <- <- <-]. split; [reflexivity|].
  apply find_reg_spec in E. destruct E as (d & r & E & Hd & Hk). cbn in E. subst i. exists d, r. split; [|split; [now rewrite nth_error_map, Hd|exact Hk]].
  assert (d < List.length (a_qregs P L c)) by (apply nth_error_Some; congruence). unfold reg_names. destruct labels; [now rewrite nth_error_map, Hd|].
  destruct (a_qregs P L c) as [|x [|y rs]]; [cbn in H; lia|assert (d = 0) by (cbn in H; lia); subst; reflexivity|]. rewrite nth_error_map.
  rewrite (nth_error_nth' _ 0); [|now rewrite seq_length]. now rewrite seq_nth.
Qed.
Lemma entry_in labels (c : acircuit) q : In q (aqubits P L c) -> exists v, entry P L lstr labels c q = Ok (q, v).
Proof.
  intros H. unfold entry, bind. assert (F : forall rs i, In q (List.concat (map snd rs)) -> exists x, find_reg L q i rs = Ok x).
  { induction rs as [|[m s] rs IH]; intros i Hi; [destruct Hi|]. cbn in *. destruct (index_of q s) eqn:E; [eauto|]. apply in_app_or in Hi. destruct Hi as [Hi|Hi]; [destruct (index_in _ _ Hi); congruence|auto]. }
  destruct (F (a_qregs P L c) 0 H) as ([[i l] k] & ->). eauto.
Qed.
Lemma dget_in {V} q (v : V) : forall m, dget Nat.eqb q m = Some v -> In (q, v) m.
Proof. induction m as [|[a b] m IH]; cbn; [discriminate|]. destruct (Nat.eqb q a) eqn:E; [apply Nat.eqb_eq in E; intros [= ->]; subst; auto|auto]. Qed.
Lemma mapping_spec labels (c : acircuit) m q v : mapping_of P L lstr labels c = Ok m -> dget Nat.eqb q m = Some v -> entry P L lstr labels c q = Ok (q, v).
Proof.
  intros Hm H. apply dget_in in H. apply mapM_each in Hm. induction Hm as [|x [y w] l r Hx _ IH]; [destruct H|]. destruct H as [[= -> ->]|H]; [|auto].
  assert (x = q). { destruct v as [n k]. apply entry_spec in Hx. destruct Hx as (-> & _). reflexivity. } now subst.
Qed.
Lemma mapping_has labels (c : acircuit) m q : mapping_of P L lstr labels c = Ok m -> In q (aqubits P L c) -> exists v, dget Nat.eqb q m = Some v.
Proof.
  intros Hm H. apply mapM_each in Hm. induction Hm as [|x [y [n k]] l r Hx _ IH]; [destruct H|]. apply entry_spec in Hx as E. destruct E as (-> & _). cbn. destruct (Nat.eqb q x) eqn:E; [eauto|].
  destruct H as [->|H]; [rewrite Nat.eqb_refl in E; discriminate|auto].
Qed.

(** ** Statements *)
Definition pairs (m : list (nat * (string * nat))) (qs : list nat) (os : list (string * nat)) : Prop := Forall2 (fun q o => dget Nat.eqb q m = Some o) qs os.
Lemma operands_spec m op o : operands P m op = Ok o -> (m = [] -> the_qubits P op = []) ->
  exists os, pairs m (the_qubits P op) os /\ o = match os with [] => None | _ => Some (map operand os) end.
Proof.
  unfold operands, the_qubits, bind. intros H Hm. destruct (a_qubits P op) as [[|q qs]|]; [exists []; split; [constructor|congruence]| |exists []; split; [constructor|congruence]].
  unfold map_qubits in H. destruct m as [|e m]; [specialize (Hm eq_refl); discriminate|]. set (mm := e :: m) in *. clearbody mm. destruct (mapM _ (q :: qs)) as [l|] eqn:E; [|discriminate]. injection H as <-. apply mapM_each in E.
  assert (F : exists os, pairs mm (q :: qs) os /\ l = map operand os).
  { clear - E. revert l E. generalize (q :: qs). intros xs l E. induction E as [|x y xs l Hx _ (os & A & B)]; [exists []; split; [constructor|reflexivity]|]. destruct (dget Nat.eqb x mm) as [[n k]|] eqn:Ed; [|discriminate]. injection Hx as <-.
    exists ((n, k) :: os). split; [constructor; auto|]. cbn. now rewrite B. }
  destruct F as (os & A & ->). exists os. split; [exact A|]. inversion A; reflexivity.
Qed.
Lemma sget_in {V} n (v : V) : forall m, dget String.eqb n m = Some v -> In (n, v) m.
Proof. induction m as [|[a b] m IH]; cbn; [discriminate|]. destruct (String.eqb_spec n a) as [->|]; [intros [= ->]; auto|auto]. Qed.
Lemma sget_none {V} n (v : V) : forall m, dget String.eqb n m = None -> ~ In (n, v) m.
Proof. induction m as [|[a b] m IH]; cbn; [auto|]. destruct (String.eqb_spec n a) as [->|]; [discriminate|]. intros H [[= -> _]|Hi]; [auto|]. now apply IH. Qed.
Lemma table_names n g : dget String.eqb n qgates = Some g -> In (n, (g_name g, (g_np g, g_nq g))) qasm_names /\ word (g_name g) /\ ~ In (g_name g) ["gate"; "qreg"; "creg"].
Proof.
  intros H. apply sget_in in H. cbn in H. repeat destruct H as [[= <- <-]|H]; try (split; [cbn; tauto|split; [split; reflexivity|cbn; intuition discriminate]]). destruct H.
Qed.
Lemma names_fun n q np nq q' np' nq' : In (n, (q, (np, nq))) qasm_names -> In (n, (q', (np', nq'))) qasm_names -> q = q' /\ np = np' /\ nq = nq'.
Proof.
  assert (G : forall q np nq, In (n, (q, (np, nq))) qasm_names -> dget String.eqb n qasm_names = Some (q, (np, nq))).
  { intros q0 np0 nq0 H. cbn in H. repeat destruct H as [[= <- <- <- <-]|H]; try reflexivity. destruct H. }
  intros H H'. apply G in H, H'. rewrite H in H'. injection H' as -> -> ->. auto.
Qed.
Lemma lower_word n : word n -> word (lower n).
Proof.
  intros (Hf & Hn). split; [destruct n; [discriminate|reflexivity]|]. clear Hf. induction n as [|c n IH]; [reflexivity|]. cbn [lower chars] in *. apply andb_true_iff in Hn. destruct Hn as (Hc & Hn). rewrite (IH Hn), andb_true_r.
  revert Hc. clear. revert c. all_chars.
Qed.
Lemma written_all np ps qs : np = List.length ps -> np <= 3 -> np <> 2 -> written P np ps = Ok qs -> qs = ps.
Proof.
  intros -> H3 H2 H. destruct ps as [|a [|b [|d ps]]]; cbn in *; try congruence; try lia. destruct (Nat.eqb (List.length ps) (List.length ps)); congruence.
Qed.
Lemma np_small n q np nq : In (n, (q, (np, nq))) qasm_names -> np <= 3 /\ np <> 2 /\ 1 <= nq.
Proof. intros H. cbn in H. repeat destruct H as [[= <- <- <- <-]|H]; lia. Qed.
Definition params_written (op : aop) : list P := match a_class P op with Class _ => a_params P op | Custom _ => [] end.
Lemma op_spec m op s : op_qasm P show m op = Ok s -> shaped P op -> (m = [] -> the_qubits P op = []) ->
  exists n os, s = (head_of n (map show (params_written op)) ++ tail_of os)%string /\ word n /\ ~ In n ["gate"; "qreg"; "creg"] /\ pairs m (the_qubits P op) os /\
    match a_class P op with Class c => exists k, In (c, (n, k)) qasm_names | Custom c => n = lower c end.
Proof.
  unfold op_qasm, shaped, params_written. intros H Hs Hm. destruct (a_class P op) as [c|c].
  - destruct (dget String.eqb c qgates) as [g|] eqn:E; [|discriminate]. destruct (table_names _ _ E) as (Hi & Hw & Hk). destruct Hs as (q & np & nq & Hq & Hp & Hl). destruct (names_fun _ _ _ _ _ _ _ Hi Hq) as (E1 & E2 & E3).
    unfold bind in H. destruct (written P (g_np g) (a_params P op)) as [ps|] eqn:Ew; [|discriminate]. destruct (np_small _ _ _ _ Hi) as (N1 & N2 & N3). apply written_all in Ew; auto; [|congruence]. subst ps.
    destruct (operands P m op) as [o|] eqn:Eo; [|discriminate]. destruct (operands_spec m op o Eo Hm) as (os & Hos & ->). exists (g_name g), os.
    assert (Hh : (match a_params P op with [] => g_name g | _ => (g_name g ++ "(" ++ join ", " (map show (a_params P op)) ++ ")")%string end) = head_of (g_name g) (map show (a_params P op))) by (destruct (a_params P op); reflexivity).
    rewrite Hh in H. split; [|split; [exact Hw|split; [exact Hk|split; [exact Hos|eauto]]]]. destruct os as [|x os]; [injection H as <-; cbn; now rewrite sapp_nil|].
    assert (Ln : List.length (map operand (x :: os)) = g_nq g).
    { rewrite map_length, E3. unfold pairs, the_qubits in Hos. destruct (a_qubits P op) as [qs|]; [|inversion Hos]. rewrite <- (Hl qs eq_refl); [|intros ->; inversion Hos]. symmetry. clear - Hos. induction Hos; cbn; congruence. }
    rewrite Ln, Nat.ltb_irrefl in H. rewrite <- Ln, firstn_all in H. injection H as <-. reflexivity.
  - unfold bind in H. destruct (operands P m op) as [o|] eqn:Eo; [|discriminate]. destruct (operands_spec m op o Eo Hm) as (os & Hos & ->). injection H as <-. exists (lower c), os. destruct Hs as (Hw & Hk).
    split; [destruct os; cbn; [now rewrite sapp_nil|reflexivity]|]. split; [now apply lower_word|]. auto.
Qed.
Lemma write_spec defs m : forall ops d s, write_ops P show defs m ops = Ok (d, s) ->
  exists ss, Forall2 (fun op x => op_qasm P show m op = Ok x) ops ss /\ s = unlines (map (fun x => (x ++ ";")%string) ss) /\
    d = unlines (List.concat (map (fun op => match decl_of P op with Some t => if defs then [""; t] else [] | None => [] end) ops)).
Proof.
  induction ops as [|op ops IH]; cbn [write_ops]; intros d s H; [injection H as <- <-; exists []; repeat split; constructor|]. unfold bind in H. destruct (op_qasm P show m op) as [x|] eqn:E; [|discriminate].
  destruct (write_ops P show defs m ops) as [[d' s']|]; [|discriminate]. injection H as <- <-. destruct (IH d' s' eq_refl) as (ss & A & B & C). exists (x :: ss). split; [constructor; auto|]. split.
  - cbn [fst snd map unlines]. rewrite <- B, sapp_assoc. reflexivity.
  - cbn [map List.concat fst]. rewrite unlines_app, <- C. destruct (decl_of P op); [|reflexivity]. destruct defs; [|reflexivity]. cbn [unlines]. unfold nl. cbn [append]. rewrite ?sapp_assoc. cbn [append]. rewrite ?sapp_assoc. reflexivity.
Qed.
Lemma decl_def (op : aop) : match decl_of P op with Some d => [d] | None => [] end = definition_of P op.
Proof.
  unfold decl_of, definition_of. destruct (a_class P op) as [n|n]; [|reflexivity]. destruct (dget String.eqb n qgates) as [g|] eqn:E.
  - apply sget_in in E. cbn in E. repeat destruct E as [[= <- <-]|E]; try reflexivity. destruct E.
  - match goal with |- _ = match ?x with _ => _ end => destruct x as [d|] eqn:F end; [|reflexivity]. exfalso. apply sget_in in F.
    repeat destruct F as [[= <- <-]|F]; try discriminate E. destruct F.
Qed.
Lemma defs_read (op : aop) d : In d (definition_of P op) -> tidy d /\ full d = true /\ read_line d = Some (LDef d).
Proof.
  unfold definition_of. destruct (a_class P op) as [n|n]; [|intros []]. match goal with |- In _ match ?x with _ => _ end -> _ => destruct x as [e|] eqn:F end; [|intros []]. intros [<-|[]]. apply sget_in in F.
  repeat destruct F as [[= <- <-]|F]; try ((split; [split; [|split]|split]); reflexivity). destruct F.
Qed.

Lemma Forall2_combine_in {A B} (l : list A) (m : list B) (Q : A -> B -> Prop) : (forall a b, In a l -> Q a b) -> Forall (fun x => Q (fst x) (snd x)) (combine l m).
Proof. intros H. apply Forall_forall. intros [a b] Hi. apply H. eapply in_combine_l; eauto. Qed.
Lemma text_read version labels defs (c : acircuit) s :
  to_qasm P show L truthy lstr version labels defs c = Ok s -> labelled P L truthy lstr labels c ->
  Forall (shaped P) (a_ops P L c) -> Forall (fun op => incl (the_qubits P op) (aqubits P L c)) (a_ops P L c) ->
  Forall (fun op => Forall plain (map show (a_params P op))) (a_ops P L c) ->
  exists ds qs cs ss, read s = Some (map LDef ds ++ map LQreg qs ++ map LCreg cs ++ map LStmt ss) /\
    NoDup (map fst (qs ++ cs)) /\ map snd qs = map (fun r => List.length (snd r)) (a_qregs P L c) /\ map snd cs = map (fun r => List.length (snd r)) (a_cregs P L c) /\
    Forall2 (states P show qs (aqubits P L c)) (a_ops P L c) ss /\
    ds = (if defs then List.concat (map (definition_of P) (a_ops P L c)) else []).
Proof.
  intros H Ha Hs Hi Hp. unfold to_qasm in H. destruct (String.eqb version "2.0"); [|discriminate]. unfold bind in H. destruct (mapping_of P L lstr labels c) as [m|] eqn:Em; [|discriminate].
  destruct (write_ops P show defs m (a_ops P L c)) as [[d t]|] eqn:Ew; [|discriminate]. injection H as <-. cbn [fst snd].
  set (qr := a_qregs P L c) in *. set (cr := a_cregs P L c) in *.
  assert (Hlq : ok_labels labels qr) by (intros E; destruct (Ha E) as (A & _); apply Forall_app in A; tauto).
  assert (Hlc : ok_labels labels cr) by (intros E; destruct (Ha E) as (A & _); apply Forall_app in A; tauto).
  set (qn := reg_names "q" labels qr). set (cn := reg_names "c" labels cr).
  assert (Wq : Forall word qn) by (apply names_word; [split; reflexivity|exact Hlq]). assert (Wc : Forall word cn) by (apply names_word; [split; reflexivity|exact Hlc]).
  assert (Nd : NoDup (qn ++ cn)) by (apply names_nodup; intros E; apply (Ha E)).
  set (qs := combine qn (sizes qr)). set (cs := combine cn (sizes cr)).
  assert (Fq : map fst qs = qn /\ map snd qs = sizes qr). { unfold qs. assert (E : List.length qn = List.length (sizes qr)) by (unfold qn, sizes; now rewrite names_length, map_length). clearbody qn. revert E. generalize (sizes qr). clear. intros l. revert l. induction qn as [|a qn IH]; intros [|b l] E; try discriminate; [auto|]. cbn in *. destruct (IH l) as (-> & ->); auto. }
  assert (Fc : map fst cs = cn /\ map snd cs = sizes cr). { unfold cs. assert (E : List.length cn = List.length (sizes cr)) by (unfold cn, sizes; now rewrite names_length, map_length). clearbody cn. revert E. generalize (sizes cr). clear. intros l. revert l. induction cn as [|a cn IH]; intros [|b l] E; try discriminate; [auto|]. cbn in *. destruct (IH l) as (-> & ->); auto. }
  destruct (write_spec _ _ _ _ _ Ew) as (xs & Hx & -> & ->).
  (* statements *)
  assert (St : exists ss, Forall2 (fun x y => tidy (x ++ ";") /\ read_line (x ++ ";") = Some (LStmt y)) xs ss /\ Forall2 (states P show qs (aqubits P L c)) (a_ops P L c) ss).
  { clear Ew. revert Hs Hi Hp. generalize dependent xs. generalize (a_ops P L c). intros ops xs Hx. induction Hx as [|op x ops xs Ho _ IH]; intros Hs Hi Hp; [exists []; split; constructor|].
    pose proof (Forall_inv Hs) as H1. pose proof (Forall_inv Hi) as H6. pose proof (Forall_inv Hp) as H10. destruct (IH (Forall_inv_tail Hs) (Forall_inv_tail Hi) (Forall_inv_tail Hp)) as (ss & A & B).
    assert (M0 : m = [] -> the_qubits P op = []). { intros ->. destruct (the_qubits P op) as [|q qs'] eqn:Eq; [reflexivity|]. destruct (mapping_has labels c [] q Em) as (v & Hv); [apply H6; rewrite Eq; now left|discriminate Hv]. }
    destruct (op_spec m op x Ho H1 M0) as (n & os & -> & Hw & Hk & Hos & Hc).
    assert (Hent : Forall2 (fun q o => chars word_char (fst o) = true /\ exists k, resolve qs o = Some k /\ nth_error (aqubits P L c) k = Some q) (the_qubits P op) os).
    { clear - Hos Em Wq Nd. induction Hos as [|q [a k] l os Hq _ IH]; constructor; [|exact IH]. apply (mapping_spec labels c m q (a, k) Em) in Hq. apply entry_spec in Hq. destruct Hq as (_ & i & r & E1 & E2 & E3). fold qr qn in E1. split; [cbn; apply (proj1 (Forall_forall _ _) Wq a); eapply nth_error_In; eauto|].
      unfold qs, sizes, aqubits. fold qr. rewrite <- (map_map snd (@List.length nat)). fold qr in E2. apply resolve_at with (i := i) (r := r); auto; [unfold qn; now rewrite names_length, map_length|]. clear - Nd. induction qn as [|a l IH]; [constructor|]. cbn in Nd. inversion Nd; subst. constructor; auto. intros Hin. apply H1. apply in_or_app. auto. }
    assert (Hwo : Forall (fun o => chars word_char (fst o) = true) os) by (clear - Hent; induction Hent as [|? ? ? ? [? _]]; constructor; auto).
    assert (Hpl : Forall plain (map show (params_written op))) by (unfold params_written; destruct (a_class P op); [assumption|constructor]).
    exists (mkS n (map show (params_written op)) os :: ss). split.
    - constructor; [|exact A]. rewrite sapp_assoc. split; [now apply statement_tidy|]. now apply statement_line.
    - constructor; [|exact B]. split; [|split].
      + cbn. destruct (a_class P op); auto.
      + cbn. unfold params_written. now destruct (a_class P op).
      + cbn. clear - Hent. induction Hent as [|? ? ? ? [_ ?]]; constructor; auto. }
  destruct St as (ss & Sr & Ss).
  set (ds := if defs then List.concat (map (definition_of P) (a_ops P L c)) else []).
  exists ds, qs, cs, ss. split; [|split; [rewrite map_app; destruct Fq as (-> & _), Fc as (-> & _); exact Nd|split; [apply Fq|split; [apply Fc|split; [exact Ss|reflexivity]]]]].
  (* the lines *)
  set (dl := List.concat (map (fun op => match decl_of P op with Some t => if defs then [""; t] else [] | None => [] end) (a_ops P L c))).
  assert (Dl : Forall tidy dl /\ filter full dl = ds /\ all read_line ds = Some (map LDef ds)).
  { unfold dl, ds. clear. induction (a_ops P L c) as [|op ops IH]; [destruct defs; repeat split; constructor|]. cbn [map List.concat]. pose proof (decl_def op) as E. pose proof (defs_read op) as R. destruct IH as (A & B & C).
    destruct (decl_of P op) as [t|]; [|rewrite <- E; cbn; destruct defs; auto]. destruct defs; [|auto]. rewrite <- E in *. destruct (R t (or_introl eq_refl)) as (T & F & G). cbn [app].
    split; [constructor; [repeat split|constructor; auto]|]. split; [cbn [filter full]; rewrite F, B; reflexivity|]. cbn [all map]. rewrite G, C. reflexivity. }
  destruct Dl as (D1 & D2 & D3).
  assert (Reg : forall kw n z, (kw = "qreg" \/ kw = "creg") -> Forall word n -> Forall tidy (map (reg_line kw) (combine n z)) /\ filter full (map (reg_line kw) (combine n z)) = map (reg_line kw) (combine n z) /\
     all read_line (map (reg_line kw) (combine n z)) = Some (map (if String.eqb kw "qreg" then LQreg else LCreg) (combine n z))).
  { intros kw n z Hk Hn. assert (F : Forall (fun x => word (fst x)) (combine n z)) by (apply (Forall2_combine_in n z (fun a _ => word a)); intros a b; apply (proj1 (Forall_forall _ _) Hn a)).
    split; [apply Forall_map; eapply Forall_impl; [|exact F]; intros a Hw; now apply register_tidy|]. split.
    - clear - Hk. induction (combine n z) as [|x l IH]; [reflexivity|]. cbn [map filter]. rewrite IH. destruct Hk as [-> | ->]; reflexivity.
    - apply all_map. eapply Forall_impl; [|exact F]. intros [a k] Hw. unfold reg_line. rewrite register_line by auto. destruct (String.eqb kw "qreg"); reflexivity. }
  destruct (Reg "qreg" qn (sizes qr) (or_introl eq_refl) Wq) as (Q1 & Q2 & Q3). destruct (Reg "creg" cn (sizes cr) (or_intror eq_refl) Wc) as (C1 & C2 & C3). fold qs in Q1, Q2, Q3. fold cs in C1, C2, C3. cbn [String.eqb Ascii.eqb Bool.eqb] in Q3, C3.
  assert (X : Forall tidy (map (fun x => (x ++ ";")%string) xs) /\ filter full (map (fun x => (x ++ ";")%string) xs) = map (fun x => (x ++ ";")%string) xs /\ all read_line (map (fun x => (x ++ ";")%string) xs) = Some (map LStmt ss)).
  { clear - Sr. induction Sr as [|x y xs ss (T & R) _ (A & B & C)]; [repeat split; constructor|]. cbn [map]. split; [constructor; auto|]. split; [cbn [filter]; rewrite B; destruct x; reflexivity|]. cbn [all]. now rewrite R, C. }
  destruct X as (X1 & X2 & X3).
  assert (T1 : (header ++ unlines dl)%string = unlines (["OPENQASM 2.0;"; "include ""qelib1.inc"";"] ++ dl)) by (rewrite unlines_app; reflexivity).
  assert (T2 : ((decls L truthy lstr "qreg" "q" labels qr ++ decls L truthy lstr "creg" "c" labels cr ++ nl) ++ unlines (map (fun x => (x ++ ";")%string) xs))%string =
     unlines (map (reg_line "qreg") qs ++ map (reg_line "creg") cs ++ [""] ++ map (fun x => (x ++ ";")%string) xs)).
  { rewrite !unlines_app, decls_lines, decls_lines by assumption. rewrite !sapp_assoc. reflexivity. }
  change (read (strip (header ++ unlines dl) ++ nl ++ ("" ++ nl ++ strip ((decls L truthy lstr "qreg" "q" labels qr ++ decls L truthy lstr "creg" "c" labels cr ++ nl) ++ unlines (map (fun x => (x ++ ";")%string) xs))))%string
    = Some (map LDef ds ++ map LQreg qs ++ map LCreg cs ++ map LStmt ss)).
  unfold read. rewrite !lines_nl, !filter_app, T1, T2, !strip_unlines.
  - rewrite !filter_app, D2, Q2, C2, X2. cbn [filter full lines app]. rewrite !String.eqb_refl. cbn [andb]. apply all_app; [exact D3|]. apply all_app; [exact Q3|]. apply all_app; [exact C3|exact X3].
  - apply Forall_app. split; [exact Q1|]. apply Forall_app. split; [exact C1|]. apply Forall_app. split; [repeat constructor|exact X1].
  - apply Forall_app. split; [repeat constructor|exact D1].
Qed.

(** ** Success *)
Lemma operands_in labels (c : acircuit) m op : mapping_of P L lstr labels c = Ok m -> incl (the_qubits P op) (aqubits P L c) -> exists o, operands P m op = Ok o.
Proof.
  intros Em Hi. unfold operands, the_qubits in *. destruct (a_qubits P op) as [[|q qs]|]; eauto. unfold map_qubits. destruct m as [|e m].
  - destruct (mapping_has labels c [] q Em) as (v & Hv); [apply Hi; now left|discriminate].
  - destruct (mapM_all (fun q => match dget Nat.eqb q (e :: m) with Some (l, i) => Ok (l ++ "[" ++ str i ++ "]")%string | None => Err KeyError end) (q :: qs)) as (r & E); [|unfold bind; rewrite E; eauto].
    apply Forall_forall. intros x Hx. destruct (mapping_has labels c _ x Em (Hi x Hx)) as ([n k] & ->). eauto.
Qed.
Lemma writes labels defs (c : acircuit) : Forall (shaped P) (a_ops P L c) -> Forall (fun op => incl (the_qubits P op) (aqubits P L c)) (a_ops P L c) ->
  exists s, to_qasm P show L truthy lstr "2.0" labels defs c = Ok s.
Proof.
  intros Hs Hi. unfold to_qasm. cbn [String.eqb Ascii.eqb Bool.eqb]. unfold bind.
  assert (Em : exists m, mapping_of P L lstr labels c = Ok m). { apply mapM_all, Forall_forall. intros q Hq. destruct (entry_in labels c q Hq) as (v & E). eauto. }
  destruct Em as (m & Em). rewrite Em. assert (W : exists r, write_ops P show defs m (a_ops P L c) = Ok r); [|destruct W as (r & ->); eauto].
  revert Hs Hi. induction (a_ops P L c) as [|op ops IH]; intros Hs Hi; cbn [write_ops]; [eauto|]. pose proof (Forall_inv Hs) as H1. pose proof (Forall_inv Hi) as H5. destruct (IH (Forall_inv_tail Hs) (Forall_inv_tail Hi)) as (r & E).
  assert (O : exists s, op_qasm P show m op = Ok s); [|destruct O as (s & Es); unfold bind; rewrite Es, E; eauto].
  destruct (operands_in labels c m op Em H5) as (o & Eo). unfold op_qasm, shaped in *. destruct (a_class P op) as [n|n]; [|unfold bind; rewrite Eo; eauto].
  destruct H1 as (q & np & nq & Hq & Hp & Hl). assert (G : exists g, dget String.eqb n qgates = Some g). { clear - Hq. cbn in Hq. repeat destruct Hq as [[= <- <- <- <-]|Hq]; try (eexists; reflexivity). destruct Hq. }
  destruct G as (g & Eg). rewrite Eg. destruct (table_names _ _ Eg) as (Hi' & _). destruct (names_fun _ _ _ _ _ _ _ Hi' Hq) as (E1 & E2 & E3). destruct (np_small _ _ _ _ Hq) as (N1 & N2 & N3).
  assert (W : exists ps, written P (g_np g) (a_params P op) = Ok ps). { rewrite E2, <- Hp. destruct (a_params P op) as [|a [|b l]]; cbn; eauto. rewrite Nat.eqb_refl. eauto. }
  destruct W as (ps & Ew). unfold bind. rewrite Ew, Eo. destruct o as [l|]; [|eauto].
  assert (Ll : List.length l = nq).
  { unfold operands in Eo. destruct (a_qubits P op) as [[|x qs]|] eqn:Eq; try discriminate. unfold bind in Eo. destruct (map_qubits P m op (x :: qs)) as [l'|] eqn:Ek; [|discriminate]. injection Eo as <-. unfold map_qubits in Ek.
    destruct m as [|e m]; [destruct (mapping_has labels c [] x Em) as (v & Hv); [apply H5; unfold the_qubits; rewrite Eq; now left|discriminate]|]. apply mapM_each in Ek. rewrite <- (Hl _ eq_refl) by discriminate. clear - Ek. induction Ek; cbn; congruence. }
  rewrite Ll, E3, Nat.ltb_irrefl. eauto.
Qed.

(** ** Operands are told apart *)
Lemma apart rs qubits ops ss : Forall2 (states P show rs qubits) ops ss ->
  forall q q' o, In (q, o) (named P ops ss) -> In (q', o) (named P ops ss) -> q = q'.
Proof.
  intros F. assert (R : forall q o, In (q, o) (named P ops ss) -> exists k, resolve rs o = Some k /\ nth_error qubits k = Some q).
  { induction F as [|op s ops ss (_ & _ & F2) _ IH]; intros q o Hi; [now cbn in Hi|]. unfold named in Hi. cbn [combine map List.concat] in Hi. apply in_app_or in Hi. destruct Hi as [Hi|Hi]; [|now apply IH].
    clear IH. cbn [fst snd] in Hi. induction F2 as [|x y xs ys Hx _ IH]; [now cbn in Hi|]. cbn [combine In] in Hi. destruct Hi as [[= <- <-]|Hi]; auto. }
  intros q q' o H1 H2. apply R in H1, H2. destruct H1 as (k & E & N), H2 as (k' & E' & N'). congruence.
Qed.
Lemma operands_read version labels defs (c : acircuit) s :
  to_qasm P show L truthy lstr version labels defs c = Ok s -> labelled P L truthy lstr labels c ->
  Forall (shaped P) (a_ops P L c) -> Forall (fun op => incl (the_qubits P op) (aqubits P L c)) (a_ops P L c) ->
  Forall (fun op => Forall plain (map show (a_params P op))) (a_ops P L c) ->
  exists ds qs cs ss, read s = Some (map LDef ds ++ map LQreg qs ++ map LCreg cs ++ map LStmt ss) /\
    NoDup (map fst (qs ++ cs)) /\
    map snd qs = map (fun r => List.length (snd r)) (a_qregs P L c) /\ map snd cs = map (fun r => List.length (snd r)) (a_cregs P L c) /\
    Forall2 (fun op s => Forall2 (fun q o => exists k, resolve qs o = Some k /\ nth_error (aqubits P L c) k = Some q) (the_qubits P op) (s_operands s)) (a_ops P L c) ss /\
    (forall q q' o, In (q, o) (named P (a_ops P L c) ss) -> In (q', o) (named P (a_ops P L c) ss) -> q = q').
Proof.
  intros H1 H2 H3 H4 H5. destruct (text_read version labels defs c s H1 H2 H3 H4 H5) as (ds & qs & cs & ss & R & N & Z1 & Z2 & F & _). exists ds, qs, cs, ss. split; [exact R|]. split; [exact N|]. split; [exact Z1|]. split; [exact Z2|].
  split; [clear - F; induction F as [|? ? ? ? (_ & _ & ?)]; constructor; auto|]. eapply apart. exact F.
Qed.

(** ** What cannot be written *)
Lemma refuses labels defs qr cr pre op post n : Forall (shaped P) pre -> Forall (fun op => incl (the_qubits P op) (List.concat (map snd qr))) pre ->
  a_class P op = Class n -> ~ In n (map fst qasm_names) ->
  to_qasm P show L truthy lstr "2.0" labels defs (mkAC P L qr cr (pre ++ op :: post)) = Err NotImplementedError.
Proof.
  intros Hs Hi Hc Hn. destruct (writes labels defs (mkAC P L qr cr pre) Hs Hi) as (s & W). unfold to_qasm in *. cbn [String.eqb Ascii.eqb Bool.eqb a_qregs a_cregs a_ops] in *.
  change (mapping_of P L lstr labels (mkAC P L qr cr (pre ++ op :: post))) with (mapping_of P L lstr labels (mkAC P L qr cr pre)). unfold bind in *. destruct (mapping_of P L lstr labels (mkAC P L qr cr pre)) as [m|]; [|discriminate].
  destruct (write_ops P show defs m pre) as [r|] eqn:E; [|discriminate]. clear W. enough (W : write_ops P show defs m (pre ++ op :: post) = Err NotImplementedError) by now rewrite W.
  clear Hs Hi. revert r E. induction pre as [|x pre IH]; intros r E; cbn [app write_ops] in *; unfold bind in *.
  - unfold op_qasm. rewrite Hc. destruct (dget String.eqb n qgates) as [g|] eqn:G; [|reflexivity]. exfalso. apply table_names in G. destruct G as (G & _). apply Hn. now apply (in_map fst) in G.
  - destruct (op_qasm P show m x); [|discriminate]. destruct (write_ops P show defs m pre) as [r'|]; [|discriminate]. now rewrite (IH r' eq_refl).
Qed.

(** ** What is not written *)
Lemma unconditioned version labels defs (c : acircuit) :
  to_qasm P show L truthy lstr version labels defs (unconditional P L c) = to_qasm P show L truthy lstr version labels defs c.
Proof.
  unfold to_qasm. destruct (String.eqb version "2.0"); [|reflexivity]. cbn [unconditional a_qregs a_cregs a_ops]. change (mapping_of P L lstr labels (unconditional P L c)) with (mapping_of P L lstr labels c).
  unfold bind. destruct (mapping_of P L lstr labels c) as [m|]; [|reflexivity]. enough (W : forall ops, write_ops P show defs m (map (fun op => mkA P (a_class P op) (a_params P op) (a_qubits P op) (a_nq P op) None) ops) = write_ops P show defs m ops) by now rewrite W.
  induction ops as [|op ops IH]; cbn [map write_ops]; [reflexivity|]. unfold bind. rewrite IH. reflexivity.
Qed.
End QasmProofs2.

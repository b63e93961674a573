(** Lemmas about texts and reading them. *)
From Coq Require Import List String Bool Arith Ascii Decimal DecimalString DecimalNat Lia.
From Verif Require Import Py QasmModel QasmSpec.
Import ListNotations.
Local Open Scope string_scope.
Local Open Scope list_scope.

Lemma sapp_assoc (a b c : string) : ((a ++ b) ++ c)%string = (a ++ b ++ c)%string.
Proof. induction a; cbn; [reflexivity|now rewrite IHa]. Qed.
Lemma sapp_nil (a : string) : (a ++ "")%string = a.
Proof. induction a; cbn; [reflexivity|now rewrite IHa]. Qed.
Lemma chars_app p a b : chars p (a ++ b) = (chars p a && chars p b)%bool.
Proof. induction a; cbn; [reflexivity|]. now rewrite IHa, andb_assoc. Qed.
Lemma chars_weaken (p q : ascii -> bool) : (forall c, p c = true -> q c = true) -> forall s, chars p s = true -> chars q s = true.
Proof. intros H. induction s; cbn; [auto|]. intros E. apply andb_true_iff in E. destruct E as (E1 & E2). rewrite (H _ E1), (IHs E2). reflexivity. Qed.
Ltac all_chars := intros [b0 b1 b2 b3 b4 b5 b6 b7]; destruct b0, b1, b2, b3, b4, b5, b6, b7; vm_compute; congruence.

(** ** Lines *)
Definition no_nl (c : ascii) : bool := negb (Ascii.eqb c (ascii_of_nat 10)).
Lemma lines_cons s : exists h t, lines s = h :: t.
Proof. induction s as [|c s (h & t & E)]; cbn; [eauto|]. destruct (Ascii.eqb c _); [eauto|]. rewrite E. eauto. Qed.
Lemma lines_nl a b : lines (a ++ nl ++ b) = lines a ++ lines b.
Proof.
  induction a as [|c a IH]; [reflexivity|]. cbn [append lines]. rewrite IH. destruct (Ascii.eqb c _); [reflexivity|]. destruct (lines_cons a) as (h & t & ->). reflexivity.
Qed.
Lemma lines_one a : chars no_nl a = true -> lines a = [a].
Proof. induction a as [|c a IH]; [reflexivity|]. cbn [chars lines]. intros H. apply andb_true_iff in H. destruct H as (H1 & H2). unfold no_nl in H1. apply negb_true_iff in H1. rewrite H1, (IH H2). reflexivity. Qed.
Fixpoint unlines (l : list string) : string := match l with [] => "" | x :: l' => (x ++ nl ++ unlines l')%string end.
Lemma unlines_app a b : unlines (a ++ b) = (unlines a ++ unlines b)%string.
Proof. induction a as [|x a IH]; [reflexivity|]. change (x ++ nl ++ unlines (a ++ b) = (x ++ nl ++ unlines a) ++ unlines b)%string. rewrite IH, !sapp_assoc. reflexivity. Qed.
Lemma lines_unlines : forall l, Forall (fun x => chars no_nl x = true) l -> lines (unlines l) = l ++ [""].
Proof. intros l H. induction H as [|x l Hx _ IH]; [reflexivity|]. cbn [unlines]. rewrite lines_nl, (lines_one x Hx), IH. reflexivity. Qed.

(** ** Stripping *)
Definition starts_ok (s : string) : bool := match s with "" => true | String c _ => negb (is_space c) end.
Fixpoint ends_ok (s : string) : bool := match s with "" => true | String c "" => negb (is_space c) | String _ s' => ends_ok s' end.
Lemma nl_space c : Ascii.eqb c (ascii_of_nat 10) = true -> is_space c = true.
Proof. intros H. apply Ascii.eqb_eq in H. now subst. Qed.
Lemma lstrip_lines : forall s, Forall (fun l => starts_ok l = true) (lines s) -> filter full (lines (lstrip s)) = filter full (lines s) /\ (forall l, In l (lines (lstrip s)) -> In l (lines s)).
Proof.
  induction s as [|c s IH]; intros H; [auto|]. cbn [lstrip]. destruct (is_space c) eqn:E; [|auto]. cbn [lines] in *. destruct (Ascii.eqb c (ascii_of_nat 10)) eqn:En.
  - inversion H; subst. destruct (IH H3) as (A & B). split; [exact A|]. intros l Hl. right. auto.
  - destruct (lines_cons s) as (h & t & El). rewrite El in H. inversion H as [|? ? Hc _]; subst. cbn in Hc. rewrite E in Hc. discriminate.
Qed.
Lemma rstrip_lines : forall s, Forall (fun l => ends_ok l = true) (lines s) -> forall h t h' t', lines (rstrip s) = h' :: t' -> lines s = h :: t -> h' = h /\ filter full t' = filter full t.
Proof.
  induction s as [|c s IH]; intros H h t h' t' E' E; [cbn in *; split; congruence|].
  destruct (lines_cons s) as (a & b & Es). destruct (lines_cons (rstrip s)) as (a' & b' & Er).
  assert (Hs : Forall (fun l => ends_ok l = true) (lines s)).
  { cbn [lines] in H. rewrite Es in *. destruct (Ascii.eqb c _); inversion H; subst; auto. constructor; auto. destruct a; [reflexivity|]. exact H2. }
  destruct (IH Hs _ _ _ _ Er Es) as (-> & Eb). cbn [rstrip] in E'. cbn [lines] in E. rewrite Es in E. cbn [lines] in H. rewrite Es in H.
  destruct (rstrip s) as [|d r] eqn:R.
  - cbn in Er. injection Er as <- <-. cbn in Eb. destruct (Ascii.eqb c (ascii_of_nat 10)) eqn:En.
    + rewrite (nl_space _ En) in E'. cbn in E'. injection E' as <- <-. injection E as <- <-. split; [reflexivity|]. cbn. exact Eb.
    + inversion H as [|? ? Hc _]; subst. cbn in Hc. apply negb_true_iff in Hc. rewrite Hc in E'. cbn [lines] in E'. rewrite En in E'. injection E' as <- <-. injection E as <- <-. auto.
  - change (lines (String c (String d r)) = h' :: t') in E'. remember (String d r) as q. cbn [lines] in E'. rewrite Er in E'. destruct (Ascii.eqb c (ascii_of_nat 10)).
    + injection E' as <- <-. injection E as <- <-. split; [reflexivity|]. cbn. destruct (full a); cbn; now rewrite Eb.
    + injection E' as <- <-. injection E as <- <-. auto.
Qed.
Lemma strip_lines s : Forall (fun l => starts_ok l = true /\ ends_ok l = true) (lines s) -> filter full (lines (strip s)) = filter full (lines s).
Proof.
  intros H. destruct (lstrip_lines s) as (A & B); [eapply Forall_impl; [|exact H]; intros ? []; assumption|]. rewrite <- A. unfold strip.
  destruct (lines_cons (lstrip s)) as (h & t & E). destruct (lines_cons (rstrip (lstrip s))) as (h' & t' & E').
  destruct (rstrip_lines (lstrip s)) with (h := h) (t := t) (h' := h') (t' := t') as (-> & Et); auto.
  - rewrite Forall_forall in *. intros l Hl. apply H. auto.
  - rewrite E, E'. cbn. destruct (full h); now rewrite Et.
Qed.
Definition tidy (l : string) : Prop := chars no_nl l = true /\ starts_ok l = true /\ ends_ok l = true.
Lemma strip_unlines ls : Forall tidy ls -> filter full (lines (strip (unlines ls))) = filter full ls.
Proof.
  intros H. assert (E : lines (unlines ls) = ls ++ [""]) by (apply lines_unlines; eapply Forall_impl; [|exact H]; intros ? (? & ? & ?); auto).
  rewrite strip_lines, E, filter_app; [apply app_nil_r|]. rewrite E. apply Forall_app. split; [eapply Forall_impl; [|exact H]; intros ? (? & ? & ?); auto|]. repeat constructor.
Qed.

(** ** Cutting *)
Lemma cut_stop p a c b : chars (fun x => negb (p x)) a = true -> p c = true -> cut p (a ++ String c b) = (a, String c b).
Proof. intros H Hc. induction a as [|d a IH]; cbn in *; [now rewrite Hc|]. apply andb_true_iff in H. destruct H as (H1 & H2). apply negb_true_iff in H1. rewrite H1, (IH H2). reflexivity. Qed.
Lemma cut_none p a : chars (fun x => negb (p x)) a = true -> cut p a = (a, "").
Proof. intros H. induction a as [|d a IH]; cbn in *; [reflexivity|]. apply andb_true_iff in H. destruct H as (H1 & H2). apply negb_true_iff in H1. rewrite H1, (IH H2). reflexivity. Qed.
Lemma commas_one a : chars (fun x => negb (Ascii.eqb x ",")) a = true -> commas a = [a].
Proof. intros H. induction a as [|d a IH]; [reflexivity|]. cbn [chars] in H. apply andb_true_iff in H. destruct H as (H1 & H2). apply negb_true_iff in H1. cbn [commas]. rewrite H1, (IH H2). reflexivity. Qed.
Lemma commas_cons d s : Ascii.eqb d "," = false -> commas (String d s) = match commas s with h :: t => String d h :: t | [] => [] end.
Proof. intros H. cbn [commas]. rewrite H. reflexivity. Qed.
Lemma commas_app a b : chars (fun x => negb (Ascii.eqb x ",")) a = true -> commas (a ++ ", " ++ b) = a :: commas b.
Proof. intros H. induction a as [|d a IH]; [reflexivity|]. cbn [chars] in H. apply andb_true_iff in H. destruct H as (H1 & H2). apply negb_true_iff in H1. change (String d a ++ ", " ++ b)%string with (String d (a ++ ", " ++ b)). rewrite (commas_cons _ _ H1), (IH H2). reflexivity. Qed.
Lemma commas_join : forall l, l <> [] -> Forall (fun a => chars (fun x => negb (Ascii.eqb x ",")) a = true) l -> commas (join ", " l) = l.
Proof.
  intros l Hl H. induction H as [|x l Hx H IH]; [contradiction|]. destruct l as [|y l]; [now apply commas_one|].
  change (join ", " (x :: y :: l)) with (x ++ ", " ++ join ", " (y :: l))%string. rewrite commas_app by exact Hx. now rewrite IH.
Qed.

(** ** Numbers *)
Lemma to_uint_nil n : Nat.to_uint n <> Nil.
Proof. intros E. pose proof (Unsigned.of_to n) as H. rewrite E in H. cbn in H. subst n. discriminate E. Qed.
Lemma number_str n : number (str n) = Some n.
Proof. unfold number, str. rewrite NilZero.usu by apply to_uint_nil. cbn. now rewrite Unsigned.of_to. Qed.
Lemma str_inj a b : str a = str b -> a = b.
Proof. intros H. assert (number (str a) = number (str b)) by congruence. rewrite !number_str in H0. congruence. Qed.
Lemma digits_word d : chars word_char (NilEmpty.string_of_uint d) = true.
Proof. induction d; cbn -[word_char]; auto. Qed.
Lemma str_word n : word (str n).
Proof.
  unfold str, NilZero.string_of_uint. pose proof (to_uint_nil n). pose proof (digits_word (Nat.to_uint n)). destruct (Nat.to_uint n); [contradiction| | | | | | | | | |]; split; auto; reflexivity.
Qed.
Lemma word_not p : (forall c, word_char c = true -> p c = false) -> forall s, chars word_char s = true -> chars (fun x => negb (p x)) s = true.
Proof. intros H. apply chars_weaken. intros c Hc. now rewrite (H c Hc). Qed.
Lemma indexed_ok a n : chars word_char a = true -> indexed (a ++ "[" ++ str n ++ "]") = Some (a, n).
Proof.
  intros Ha. unfold indexed. change (a ++ "[" ++ str n ++ "]")%string with (a ++ String "[" (str n ++ "]"))%string. rewrite cut_stop; [|apply word_not; [all_chars|exact Ha]|reflexivity].
  change (str n ++ "]")%string with (str n ++ String "]" "")%string. rewrite cut_stop; [|apply word_not; [all_chars|apply str_word]|reflexivity]. rewrite number_str. reflexivity.
Qed.
Lemma all_map {A B C} (f : B -> option C) (g : A -> B) (h : A -> C) : forall l, Forall (fun x => f (g x) = Some (h x)) l -> all f (map g l) = Some (map h l).
Proof. intros l H. induction H as [|x l Hx _ IH]; cbn; [reflexivity|]. now rewrite Hx, IH. Qed.
Lemma all_app {A B} (f : A -> option B) : forall a b x y, all f a = Some x -> all f b = Some y -> all f (a ++ b) = Some (x ++ y).
Proof.
  induction a as [|u a IH]; cbn; intros b x y Ha Hb; [injection Ha as <-; exact Hb|]. destruct (f u); [|discriminate]. destruct (all f a) as [x'|] eqn:E; [|discriminate]. injection Ha as <-. now rewrite (IH b x' y eq_refl Hb).
Qed.
Lemma unsemi_ok : forall s, unsemi (s ++ ";") = Some s.
Proof. induction s as [|c s IH]; [reflexivity|]. cbn [append unsemi]. rewrite IH. destruct s; reflexivity. Qed.

(** ** Statements *)
Definition operand (o : string * nat) : string := (fst o ++ "[" ++ str (snd o) ++ "]")%string.
Definition tail_of (os : list (string * nat)) : string := match os with [] => "" | _ => (" " ++ join ", " (map operand os))%string end.
Definition head_of (n : string) (ps : list string) : string := match ps with [] => n | _ => (n ++ "(" ++ join ", " ps ++ ")")%string end.
Lemma chars_join p sep l : chars p sep = true -> Forall (fun x => chars p x = true) l -> chars p (join sep l) = true.
Proof.
  intros Hs H. induction H as [|x l Hx H IH]; [reflexivity|]. destruct l as [|y l]; [exact Hx|]. change (join sep (x :: y :: l)) with (x ++ sep ++ join sep (y :: l))%string. rewrite !chars_app, Hx, Hs, IH. reflexivity.
Qed.
Lemma operand_chars p o : (forall c, word_char c = true -> p c = true) -> p "["%char = true -> p "]"%char = true -> chars word_char (fst o) = true -> chars p (operand o) = true.
Proof. intros H H1 H2 Ho. unfold operand. rewrite !chars_app. cbn. rewrite H1, H2, (chars_weaken _ _ H _ Ho), (chars_weaken _ _ H _ (proj2 (str_word (snd o)))). reflexivity. Qed.
Lemma after_ok n ps os : Forall (fun o => chars word_char (fst o) = true) os -> after n ps (tail_of os) = Some (mkS n ps os).
Proof.
  intros H. destruct os as [|o os]; [reflexivity|]. unfold tail_of. cbn [append after is Ascii.eqb].
  rewrite commas_join; [|discriminate|].
  - rewrite (all_map indexed operand (fun x => x)); [now rewrite map_id|]. eapply Forall_impl; [|exact H]. intros [a k] Ha. now apply indexed_ok.
  - apply Forall_map. eapply Forall_impl; [|exact H]. intros x Hx. apply operand_chars; auto; all_chars.
Qed.
Lemma statement_ok n ps os : word n -> Forall plain ps -> Forall (fun o => chars word_char (fst o) = true) os ->
  statement (head_of n ps ++ tail_of os) = Some (mkS n ps os).
Proof.
  intros (_ & Hn) Hp Ho. unfold statement. assert (Hw : chars (fun x => negb (is "(" x || is " " x)) n = true) by (apply word_not; [all_chars|exact Hn]).
  destruct ps as [|p ps]; cbn [head_of].
  - rewrite <- (after_ok n [] os Ho). destruct os as [|o os]; cbn [tail_of].
    + rewrite sapp_nil, cut_none by exact Hw. reflexivity.
    + change (" " ++ join ", " (map operand (o :: os)))%string with (String " " (join ", " (map operand (o :: os)))). rewrite cut_stop by (auto; reflexivity). reflexivity.
  - rewrite !sapp_assoc. change ("(" ++ join ", " (p :: ps) ++ ")" ++ tail_of os)%string with (String "(" (join ", " (p :: ps) ++ String ")" (tail_of os))). rewrite cut_stop by (auto; reflexivity). cbn [is Ascii.eqb].
    rewrite cut_stop; [|apply chars_join; [reflexivity|eapply Forall_impl; [|exact Hp]; intros a; apply chars_weaken; all_chars]|reflexivity].
    rewrite commas_join; [|discriminate|eapply Forall_impl; [|exact Hp]; intros a; apply chars_weaken; all_chars]. now apply after_ok.
Qed.
Definition nonword (c : ascii) : bool := negb (word_char c).
Definition breaks (s : string) : Prop := s = "" \/ exists c t, s = String c t /\ word_char c = false.
Lemma prefix_app p : forall s, String.prefix p s = true -> exists t, s = (p ++ t)%string.
Proof.
  induction p as [|c p IH]; intros s H; [exists s; reflexivity|]. destruct s as [|d s]; [discriminate|]. cbn in H. destruct (ascii_dec c d) as [->|]; [|discriminate]. destruct (IH s H) as (t & ->). exists t. reflexivity.
Qed.
Lemma cut_word n r : chars word_char n = true -> breaks r -> cut nonword (n ++ r) = (n, r).
Proof.
  intros Hn Hr. assert (H : chars (fun x => negb (nonword x)) n = true) by (eapply chars_weaken; [|exact Hn]; intros c Hc; unfold nonword; now rewrite Hc).
  destruct Hr as [->|(c & t & -> & Hc)]; [rewrite sapp_nil; now apply cut_none|]. apply cut_stop; [exact H|]. unfold nonword. now rewrite Hc.
Qed.
Lemma not_definition n r : word n -> n <> "gate" -> breaks r -> (String.prefix "gate " (n ++ r) || String.prefix "//" (n ++ r))%bool = false.
Proof.
  intros (Hf & Hn) Hg Hr. apply orb_false_iff. split.
  - destruct (String.prefix "gate " (n ++ r)) eqn:E; [|reflexivity]. exfalso. apply prefix_app in E. destruct E as (t & E). pose proof (cut_word n r Hn Hr) as C. rewrite E in C.
    change ("gate " ++ t)%string with ("gate" ++ String " " t)%string in C. rewrite cut_word in C; [congruence|reflexivity|right; eauto].
  - destruct n as [|c n]; [discriminate|]. cbn in Hn. apply andb_true_iff in Hn. destruct Hn as (Hc & _). destruct (String.prefix "//" (String c n ++ r)) eqn:E; [|reflexivity]. exfalso. apply prefix_app in E. destruct E as (t & E). cbn in E. injection E as -> _. discriminate Hc.
Qed.
Lemma tail_breaks n ps os e : e = ";" \/ e = "" -> exists r, (head_of n ps ++ tail_of os ++ e)%string = (n ++ r)%string /\ breaks r.
Proof.
  intros He. destruct ps as [|p ps].
  - exists (tail_of os ++ e)%string. split; [reflexivity|]. destruct os; [destruct He as [->| ->]; [right; exists ";"%char, ""|left]; auto|right; eexists " "%char, _; split; reflexivity].
  - eexists. split; [unfold head_of; rewrite sapp_assoc; reflexivity|]. right. eexists "("%char, _. split; reflexivity.
Qed.
Lemma statement_line n ps os : word n -> ~ In n ["gate"; "qreg"; "creg"] -> Forall plain ps -> Forall (fun o => chars word_char (fst o) = true) os ->
  read_line (head_of n ps ++ tail_of os ++ ";") = Some (LStmt (mkS n ps os)).
Proof.
  intros Hn Hk Hp Ho. unfold read_line. destruct (tail_breaks n ps os ";") as (r & E & Hr); [auto|]. rewrite E, not_definition; auto; [|intros ->; apply Hk; cbn; auto]. rewrite <- E, <- sapp_assoc, unsemi_ok.
  assert (K : forall k t, cut (is " ") (head_of n ps ++ tail_of os) = (k, t) -> full t = true -> k <> "qreg" /\ k <> "creg").
  { assert (Hw : chars (fun x => negb (is " " x)) n = true) by (apply word_not; [all_chars|apply Hn]).
    destruct ps as [|p ps]; cbn [head_of]; intros k t Ek Ht.
    - destruct os as [|o os]; cbn [tail_of] in Ek; [rewrite sapp_nil, cut_none in Ek by exact Hw; injection Ek as <- <-; discriminate Ht|].
      change (" " ++ join ", " (map operand (o :: os)))%string with (String " " (join ", " (map operand (o :: os)))) in Ek. rewrite cut_stop in Ek by (auto; reflexivity). injection Ek as <- <-. cbn in Hk. split; intros ->; tauto.
    - assert (X : exists x, k = (n ++ String "(" x)%string).
      { rewrite sapp_assoc in Ek. clear - Ek Hw. revert k Ek. induction n as [|c n IH]; intros k Ek.
        - cbn [append cut] in Ek. change (is " " "(") with false in Ek. cbv iota in Ek. destruct (cut (is " ") _) in Ek. injection Ek as <- _. eexists. reflexivity.
        - cbn [append cut chars] in *. apply andb_true_iff in Hw. destruct Hw as (Hc & Hw). apply negb_true_iff in Hc. rewrite Hc in Ek. destruct (cut (is " ") _) as [a b] eqn:Ec. injection Ek as <- <-.
          destruct (IH Hw a eq_refl) as (x & ->). exists x. reflexivity. }
      destruct X as (x & ->). split; intros Ex; apply (f_equal (chars word_char)) in Ex; rewrite chars_app in Ex; cbn in Ex; rewrite andb_false_r in Ex; discriminate Ex. }
  destruct (cut (is " ") (head_of n ps ++ tail_of os)) as [k t]. rewrite statement_ok by assumption. destruct t as [|c t]; [reflexivity|]. destruct (K k _ eq_refl eq_refl) as (K1 & K2). apply String.eqb_neq in K1, K2. rewrite K1, K2. reflexivity.
Qed.
Lemma register_line kw a n : kw = "qreg" \/ kw = "creg" -> word a ->
  read_line (kw ++ " " ++ a ++ "[" ++ str n ++ "];") = Some (if String.eqb kw "qreg" then LQreg (a, n) else LCreg (a, n)).
Proof.
  intros Hk (_ & Ha). unfold read_line. assert (Hw : word kw) by (destruct Hk as [-> | ->]; split; reflexivity).
  change (kw ++ " " ++ a ++ "[" ++ str n ++ "];")%string with (kw ++ String " " (a ++ "[" ++ str n ++ "];"))%string. rewrite not_definition; [|exact Hw|destruct Hk as [-> | ->]; discriminate|right; eexists _, _; split; reflexivity].
  replace (kw ++ String " " (a ++ "[" ++ str n ++ "];"))%string with ((kw ++ String " " (a ++ "[" ++ str n ++ "]")) ++ ";")%string.
  - rewrite unsemi_ok, cut_stop by (destruct Hk as [-> | ->]; reflexivity). rewrite indexed_ok by exact Ha. destruct Hk as [-> | ->]; reflexivity.
  - repeat (rewrite sapp_assoc; cbn [append]). reflexivity.
Qed.
Lemma ends_semi s : ends_ok (s ++ ";") = true.
Proof. induction s as [|c s IH]; [reflexivity|]. cbn [append ends_ok]. destruct (s ++ ";")%string eqn:E; [destruct s; discriminate E|exact IH]. Qed.
Lemma word_start n r : word n -> starts_ok (n ++ r) = true.
Proof. intros (Hf & Hn). destruct n as [|c n]; [discriminate|]. cbn in *. apply andb_true_iff in Hn. destruct Hn as (Hc & _). revert Hc. clear. revert c. all_chars. Qed.
Lemma statement_tidy n ps os : word n -> Forall plain ps -> Forall (fun o => chars word_char (fst o) = true) os -> tidy (head_of n ps ++ tail_of os ++ ";").
Proof.
  intros Hn Hp Ho. split; [|split].
  - rewrite !chars_app. apply andb_true_iff. split; [|apply andb_true_iff; split; [|reflexivity]].
    + assert (Hw : chars no_nl n = true) by (eapply chars_weaken; [|apply Hn]; all_chars). destruct ps as [|p ps]; [exact Hw|]. unfold head_of. rewrite !chars_app, Hw. cbn [andb chars].
      rewrite chars_join; [reflexivity|reflexivity|]. eapply Forall_impl; [|exact Hp]. intros a. apply chars_weaken. all_chars.
    + destruct os as [|o os]; [reflexivity|]. unfold tail_of. rewrite chars_app, chars_join; [reflexivity|reflexivity|]. apply Forall_map. eapply Forall_impl; [|exact Ho]. intros x Hx. apply operand_chars; auto; all_chars.
  - destruct (tail_breaks n ps os ";") as (r & -> & _); [auto|]. now apply word_start.
  - rewrite <- sapp_assoc. apply ends_semi.
Qed.
Lemma register_tidy kw a n : kw = "qreg" \/ kw = "creg" -> word a -> tidy (kw ++ " " ++ a ++ "[" ++ str n ++ "];").
Proof.
  intros Hk (_ & Ha). assert (W : forall s, chars word_char s = true -> chars no_nl s = true) by (apply chars_weaken; all_chars). split; [|split].
  - rewrite !chars_app, (W _ Ha), (W _ (proj2 (str_word n))). destruct Hk as [-> | ->]; reflexivity.
  - destruct Hk as [-> | ->]; reflexivity.
  - replace (kw ++ " " ++ a ++ "[" ++ str n ++ "];")%string with ((kw ++ " " ++ a ++ "[" ++ str n ++ "]") ++ ";")%string by (repeat (rewrite sapp_assoc; cbn [append]); reflexivity). apply ends_semi.
Qed.

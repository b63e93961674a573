(** Proofs about printed forms. *)
From Coq Require Import List Ascii String Bool Arith Lia.
From Verif Require Import Py CounterModel CounterSpec CounterProofs PrimModel PrimSpec PrimProofs QasmModel QasmSpec QasmProofs PrintModel PrintSpec.
Import ListNotations.
Local Open Scope string_scope.

Lemma sassoc (a b c : string) : (a ++ b) ++ c = a ++ (b ++ c).
Proof. induction a as [|x a IH]; cbn; congruence. Qed.
Lemma snil (a : string) : a ++ "" = a.
Proof. induction a as [|x a IH]; cbn; congruence. Qed.

Definition starts (cs : string) (s : string) : Prop := match s with "" => False | String c _ => In c (chars_of cs) end.

(** Texts without the characters [cs] end where one of these comes. *)
Lemma stop cs a : forall b s t, without cs a -> without cs b -> starts cs s -> starts cs t -> a ++ s = b ++ t -> a = b /\ s = t.
Proof.
  induction a as [|x a IH]; intros [|y b] s t Ha Hb Hs Ht E; cbn in E.
  - auto.
  - exfalso. subst s. cbn in Hs. exact (Hb y Hs (or_introl eq_refl)).
  - exfalso. subst t. cbn in Ht. exact (Ha x Ht (or_introl eq_refl)).
  - injection E as -> E. destruct (IH b s t) as [-> ->]; auto; intros c Hc Hi; [apply (Ha c Hc)|apply (Hb c Hc)]; right; exact Hi.
Qed.

(** ** Strings *)
Fixpoint comparable (a b : string) : bool :=
  match a, b with String x a', String y b' => Ascii.eqb x y && comparable a' b' | _, _ => true end.
Lemma comparable_app a : forall b s t, a ++ s = b ++ t -> comparable a b = true.
Proof.
  induction a as [|x a IH]; intros [|y b] s t E; try reflexivity. cbn in E. injection E as -> E. cbn. rewrite Ascii.eqb_refl. cbn. eauto.
Qed.
Definition all_chars : list ascii := map ascii_of_nat (seq 0 256).
Lemma all_chars_in c : In c all_chars.
Proof.
  unfold all_chars. rewrite <- (ascii_nat_embedding c). apply in_map. apply in_seq. pose proof (nat_ascii_bounded c). cbn. lia.
Qed.
Lemma esc_check : forallb (fun q => forallb (fun c => forallb (fun d => implb (comparable (esc_char q c) (esc_char q d)) (Ascii.eqb c d)) all_chars
  && match esc_char q c with "" => false | String h _ => negb (Ascii.eqb h q) end) all_chars) [apostrophe; quotation] = true.
Proof. vm_compute. reflexivity. Qed.
Lemma quote_in s : In (quote_of s) [apostrophe; quotation].
Proof. unfold quote_of. destruct (_ && _); cbn; auto. Qed.
Lemma esc_free q c d s t : In q [apostrophe; quotation] -> esc_char q c ++ s = esc_char q d ++ t -> c = d /\ s = t.
Proof.
  intros Hq E. pose proof (proj1 (forallb_forall _ _) esc_check q Hq) as H. cbv beta in H.
  pose proof (proj1 (forallb_forall _ _) H c (all_chars_in c)) as H1. cbv beta in H1. apply andb_prop in H1. destruct H1 as [H1 _].
  pose proof (proj1 (forallb_forall _ _) H1 d (all_chars_in d)) as H2. cbv beta in H2. rewrite (comparable_app _ _ _ _ E) in H2. cbn in H2.
  apply Ascii.eqb_eq in H2. subst d. split; [reflexivity|].
  revert E. generalize (esc_char q c). intros u. induction u as [|x u IH]; cbn; intros E; [exact E|]. injection E as E. auto.
Qed.
Lemma esc_head q c s : In q [apostrophe; quotation] -> exists h r, esc_char q c ++ s = String h r /\ h <> q.
Proof.
  intros Hq. pose proof (proj1 (forallb_forall _ _) esc_check q Hq) as H. cbv beta in H.
  pose proof (proj1 (forallb_forall _ _) H c (all_chars_in c)) as H1. cbv beta in H1. apply andb_prop in H1. destruct H1 as [_ H1].
  destruct (esc_char q c) as [|h r]; [discriminate|]. exists h, (r ++ s). split; [reflexivity|]. intros ->. rewrite Ascii.eqb_refl in H1. discriminate.
Qed.
Lemma esc_code q : In q [apostrophe; quotation] -> forall x y s t, esc q x ++ String q s = esc q y ++ String q t -> x = y /\ s = t.
Proof.
  intros Hq. induction x as [|c x IH]; intros [|d y] s t E; cbn [esc append] in E.
  - injection E as ->. auto.
  - exfalso. rewrite sassoc in E. destruct (esc_head q d (esc q y ++ String q t) Hq) as (h & r & Eh & N). rewrite Eh in E. injection E as E _. congruence.
  - exfalso. rewrite sassoc in E. destruct (esc_head q c (esc q x ++ String q s) Hq) as (h & r & Eh & N). rewrite Eh in E. injection E as E _. congruence.
  - rewrite !sassoc in E. apply (esc_free q c d _ _ Hq) in E. destruct E as [-> E]. apply IH in E. destruct E as [-> ->]. auto.
Qed.
Lemma repr_code x y s t : repr_str x ++ s = repr_str y ++ t -> x = y /\ s = t.
Proof.
  unfold repr_str. cbn [append]. rewrite !sassoc. cbn [append]. intros E. injection E as Eq E. rewrite Eq in E. apply esc_code in E; [exact E|apply quote_in].
Qed.
Lemma repr_str_inj x y : repr_str x = repr_str y -> x = y.
Proof. intros E. apply (repr_code x y "" ""). now rewrite !snil. Qed.
Lemma inside_char q c s : In q [apostrophe; quotation] -> inside q (esc_char q c ++ s) = put c (inside q s).
Proof.
  intros [<-|[<-|[]]]; destruct c as [[] [] [] [] [] [] [] []]; reflexivity.
Qed.
Lemma inside_esc q s : In q [apostrophe; quotation] -> inside q (esc q s ++ String q "") = Some s.
Proof.
  intros Hq. induction s as [|c s IH]; cbn [esc append].
  - cbn. now rewrite Ascii.eqb_refl.
  - now rewrite sassoc, inside_char, IH.
Qed.
Lemma literal_repr s : literal (repr_str s) = Some s.
Proof.
  unfold literal, repr_str. pose proof (inside_esc (quote_of s) s (quote_in s)) as H.
  destruct (quote_in s) as [E|[E|[]]]; rewrite <- E in *; exact H.
Qed.
Global Opaque repr_str.

Lemma string_tail a b s t : String a s = String b t -> s = t.
Proof. now injection 1. Qed.
Ltac tails E := cbn [append] in E; repeat match type of E with String _ _ = String _ _ => apply string_tail in E end.
Ltac starting := cbn; tauto.

Section Print.
Variable N : Type.
Variable ntrue : N -> bool.
Variable nstr : N -> string.
Notation repr_prim := (repr_prim N ntrue nstr).
Notation plain_id := (plain_id N).

(** ** Qubits and bits *)
Lemma prim_code p q s t : plain_id p -> plain_id q -> repr_prim p ++ s = repr_prim q ++ t -> p = q /\ s = t.
Proof.
  intros Hp Hq E.
  destruct p as [l i|l i [v|]|n v], q as [l' i'|l' i' [v'|]|n' v']; cbn in Hp, Hq; try contradiction; cbn [PrintModel.repr_prim] in E.
  all: rewrite ?sassoc in E; cbn [append] in E; try discriminate E.
  all: tails E; apply repr_code in E; destruct E as [-> E]; tails E;
    apply (stop ",>") in E; [destruct E as [-> E]|assumption|assumption|starting|starting]; try discriminate E.
  all: tails E.
  - subst. auto.
  - destruct v, v'; cbn [append] in E; try discriminate E; injection E as ->; auto.
  - subst. auto.
Qed.
Lemma prim_repr_inj p q : plain_id p -> plain_id q -> repr_prim p = repr_prim q -> p = q.
Proof. intros Hp Hq E. apply (prim_code p q "" "" Hp Hq). now rewrite !snil. Qed.
Lemma prim_head p s : plain_id p -> exists r, repr_prim p ++ s = String "<" r.
Proof. destruct p as [l i|l i [v|]|n v]; cbn; intros H; try contradiction; eexists; reflexivity. Qed.

Lemma has_app c a b : has_char c (a ++ b) = (has_char c a || has_char c b)%bool.
Proof. induction a as [|x a IH]; cbn; [reflexivity|]. rewrite IH. now destruct (Ascii.eqb x c). Qed.
Lemma has_without c s : without (String c "") s -> has_char c s = false.
Proof.
  intros H. induction s as [|d s IH]; [reflexivity|]. cbn. rewrite IH by (intros e He Hi; apply (H e He); right; exact Hi).
  destruct (Ascii.eqb_spec d c) as [->|]; [|reflexivity]. exfalso. apply (H c); cbn; auto.
Qed.
Lemma last_word_app a b : has_char " " b = false -> last_word (a ++ String " " b) = b.
Proof.
  intros Hb. induction a as [|x a IH]; cbn.
  - now rewrite Hb.
  - rewrite has_app. cbn. rewrite orb_true_r. cbn in IH. rewrite IH. now destruct (Ascii.eqb x " ").
Qed.
Lemma prim_last p : plain_id p -> (match p with PQubit _ _ i | PBit _ _ i _ => without " " i | _ => False end) ->
  last_word (repr_prim p) = told p ++ ">".
Proof.
  assert (Q : forall a w, has_char " " w = false -> last_word (a ++ " " ++ w ++ ">") = w ++ ">").
  { intros a w Hw. apply (last_word_app a (w ++ ">")). now rewrite has_app, Hw. }
  destruct p as [l i|l i [v|]|n v]; cbn [PrintModel.repr_prim told]; intros _ H; try contradiction.
  - transitivity (last_word (("<qubit: " ++ repr_str l ++ ", id:") ++ " " ++ i ++ ">")); [f_equal; rewrite !sassoc; reflexivity|apply Q; apply has_without; exact H].
  - replace (match v with true => "1" | false => "0" end) with (if v then "1" else "0") by (destruct v; reflexivity).
    transitivity (last_word (("<bit: " ++ repr_str l ++ ", id: " ++ i ++ ", value:") ++ " " ++ (if v then "1" else "0") ++ ">")); [f_equal; rewrite !sassoc; reflexivity|apply Q; destruct v; reflexivity].
  - transitivity (last_word (("<bit: " ++ repr_str l ++ ", id:") ++ " " ++ i ++ ">")); [f_equal; rewrite !sassoc; reflexivity|apply Q; apply has_without; exact H].
Qed.

(** ** Lists and tuples *)
Section Items.
Variable A : Type.
Variable f : A -> string.
Variable P : A -> Prop.
Variable z : ascii.
Definition coded : Prop :=
  (forall x y s t, P x -> P y -> starts (String "," (String z "")) s -> starts (String "," (String z "")) t -> f x ++ s = f y ++ t -> x = y /\ s = t) /\
  (forall x s, P x -> exists h r, f x ++ s = String h r /\ h <> z).
Hypothesis C : coded.
Hypothesis Hz : z <> ","%char.
Lemma concat_more x y l : String.concat ", " (map f (x :: y :: l)) = f x ++ ", " ++ String.concat ", " (map f (y :: l)).
Proof. reflexivity. Qed.
Lemma joined l : forall m s t, Forall P l -> Forall P m -> String.concat ", " (map f l) ++ String z s = String.concat ", " (map f m) ++ String z t -> l = m /\ s = t.
Proof.
  assert (Sz : forall u, starts (String "," (String z "")) (String z u)) by (intros; cbn; auto).
  assert (Sc : forall u, starts (String "," (String z "")) (String "," u)) by (intros; cbn; auto).
  assert (Cons : forall x l s, P x -> exists h r, String.concat ", " (map f (x :: l)) ++ s = String h r /\ h <> z).
  { intros x [|y l'] s Hx; [exact (proj2 C x s Hx)|]. rewrite concat_more, sassoc. apply (proj2 C x _ Hx). }
  induction l as [|x l IH]; intros [|y m] s t Hl Hm E.
  - cbn in E. injection E as ->. auto.
  - exfalso. inversion Hm; subst. destruct (Cons y m (String z t)) as (h & r & Eh & Nh); [assumption|]. rewrite Eh in E. cbn in E. injection E as E _. congruence.
  - exfalso. inversion Hl; subst. destruct (Cons x l (String z s)) as (h & r & Eh & Nh); [assumption|]. rewrite Eh in E. cbn in E. injection E as E _. congruence.
  - inversion Hl; subst. inversion Hm; subst. destruct l as [|x' l], m as [|y' m].
    + cbn [map String.concat] in E. apply (proj1 C) in E; auto. destruct E as [-> E]. injection E as ->. auto.
    + exfalso. rewrite concat_more in E. cbn [map String.concat] in E. rewrite !sassoc in E. cbn [append] in E. apply (proj1 C) in E; auto. destruct E as [_ E]. injection E as E _. congruence.
    + exfalso. rewrite concat_more in E. cbn [map String.concat] in E. rewrite !sassoc in E. cbn [append] in E. apply (proj1 C) in E; auto. destruct E as [_ E]. injection E as E _. congruence.
    + rewrite !concat_more, !sassoc in E. cbn [append] in E. apply (proj1 C) in E; auto. destruct E as [-> E]. tails E. apply IH in E; auto. destruct E as [E ->]. now rewrite E.
Qed.
End Items.

Lemma prims_coded z : z <> "<"%char -> coded _ repr_prim plain_id z.
Proof.
  intros Hz. split.
  - intros x y s t Hx Hy _ _ E. exact (prim_code x y s t Hx Hy E).
  - intros x s Hx. destruct (prim_head x s Hx) as (r & ->). eexists _, _. split; [reflexivity|]. congruence.
Qed.
Lemma list_code l m s t : Forall plain_id l -> Forall plain_id m -> repr_list (map repr_prim l) ++ s = repr_list (map repr_prim m) ++ t -> l = m /\ s = t.
Proof.
  intros Hl Hm E. unfold repr_list in E. rewrite !sassoc in E. cbn [append] in E. tails E.
  apply (joined _ _ plain_id) in E; auto; [apply prims_coded|]; discriminate.
Qed.
Lemma tuple_code l m s t : Forall plain_id l -> Forall plain_id m -> repr_tuple (map repr_prim l) ++ s = repr_tuple (map repr_prim m) ++ t -> l = m /\ s = t.
Proof.
  assert (J : forall l m s t, Forall plain_id l -> Forall plain_id m -> String.concat ", " (map repr_prim l) ++ String ")" s = String.concat ", " (map repr_prim m) ++ String ")" t -> l = m /\ s = t).
  { intros l0 m0 s0 t0 Hl Hm E. apply (joined _ _ plain_id) in E; auto; [apply prims_coded|]; discriminate. }
  assert (One : forall x l s t, plain_id x -> Forall plain_id l -> (forall y, l <> [y]) -> repr_prim x ++ ",)" ++ s = String.concat ", " (map repr_prim l) ++ String ")" t -> False).
  { intros x [|y [|y' l0]] s0 t0 Hx Hl H1 E; [|exact (H1 y eq_refl)|].
    - destruct (prim_head x (",)" ++ s0) Hx) as (r & Er). rewrite Er in E. discriminate E.
    - inversion Hl; subst. rewrite concat_more, !sassoc in E. apply prim_code in E; auto. destruct E as [_ E]. discriminate E. }
  intros Hl Hm E. unfold repr_tuple in E.
  destruct l as [|x [|x' l]], m as [|y [|y' m]]; cbn [map] in E; rewrite !sassoc in E; cbn [append] in E; tails E.
  - auto.
  - exfalso. inversion Hm; subst. symmetry in E. apply (One y [] t s) in E; auto. discriminate.
  - exfalso. inversion Hm; subst. destruct (prim_head y (", " ++ String.concat ", " (map repr_prim (y' :: m)) ++ String ")" t)) as (r & Er); [assumption|].
    change (repr_prim y :: repr_prim y' :: map repr_prim m) with (map repr_prim (y :: y' :: m)) in E. rewrite concat_more, !sassoc in E. rewrite Er in E. discriminate E.
  - exfalso. inversion Hl; subst. apply (One x [] s t) in E; auto. discriminate.
  - inversion Hl; inversion Hm; subst. apply prim_code in E; auto. destruct E as [-> E]. injection E as ->. auto.
  - exfalso. inversion Hl; subst. apply (One x (y :: y' :: m) s t) in E; auto. discriminate.
  - exfalso. inversion Hl; subst. destruct (prim_head x (", " ++ String.concat ", " (map repr_prim (x' :: l)) ++ String ")" s)) as (r & Er); [assumption|].
    change (repr_prim x :: repr_prim x' :: map repr_prim l) with (map repr_prim (x :: x' :: l)) in E. rewrite concat_more, !sassoc in E. rewrite Er in E. discriminate E.
  - exfalso. inversion Hm; subst. symmetry in E. apply (One y (x :: x' :: l) t s) in E; auto. discriminate.
  - change (repr_prim x :: repr_prim x' :: map repr_prim l) with (map repr_prim (x :: x' :: l)) in E. change (repr_prim y :: repr_prim y' :: map repr_prim m) with (map repr_prim (y :: y' :: m)) in E. apply J in E; auto.
Qed.
Lemma tuple_head l s : exists r, repr_tuple l ++ s = String "(" r.
Proof. unfold repr_tuple. destruct l as [|x [|y l]]; eexists; reflexivity. Qed.
Lemma opt_code a b s t : all_plain N a -> all_plain N b -> repr_opt (option_map (map repr_prim) a) ++ s = repr_opt (option_map (map repr_prim) b) ++ t -> a = b /\ s = t.
Proof.
  destruct a as [l|], b as [m|]; cbn [option_map repr_opt all_plain]; intros Ha Hb E.
  - apply tuple_code in E; auto. destruct E as [-> ->]. auto.
  - destruct (tuple_head (map repr_prim l) s) as (r & Er). rewrite Er in E. discriminate E.
  - destruct (tuple_head (map repr_prim m) t) as (r & Er). rewrite Er in E. discriminate E.
  - cbn in E. injection E as ->. auto.
Qed.

(** ** Registers *)
Lemma register_repr_inj c c' l m : identifier c -> identifier c' -> Forall plain_id l -> Forall plain_id m ->
  repr_register N ntrue nstr c l = repr_register N ntrue nstr c' m -> c = c' /\ l = m.
Proof.
  intros Hc Hc' Hl Hm E. unfold repr_register in E. cbn [append] in E. tails E.
  apply (stop ":(, ") in E; auto; try (cbn; tauto). destruct E as [-> E]. tails E. apply list_code in E; auto. destruct E as [-> _]. auto.
Qed.
Lemma register_str_inj c c' l m : identifier c -> identifier c' -> Forall plain_id l -> Forall plain_id m ->
  str_register N ntrue nstr c l = str_register N ntrue nstr c' m -> c = c' /\ l = m.
Proof.
  intros Hc Hc' Hl Hm E. unfold str_register in E.
  apply (stop ":(, ") in E; auto; try (cbn; tauto). destruct E as [-> E]. cbn [append] in E. tails E. apply list_code in E; auto. destruct E as [-> _]. auto.
Qed.

(** ** Operations *)
Section Op.
Hypothesis Ninj : forall x y, nstr x = nstr y -> x = y.
Hypothesis Nsome : forall x, nstr x <> "".
Hypothesis Nplain : forall x, without ",]" (nstr x).
Definition is_number (p : param N) : Prop := match p with Number _ _ => True | Var _ _ => False end.
Lemma numbers_coded : coded _ (repr_param N ntrue nstr) is_number "]".
Proof.
  split.
  - intros [x|x] [y|y] s t Hx Hy Hs Ht E; cbn in Hx, Hy; try contradiction. cbn [repr_param] in E.
    apply (stop ",]") in E; auto. destruct E as [E ->]. apply Ninj in E. now subst.
  - intros [x|x] s Hx; cbn in Hx; try contradiction. cbn [repr_param]. pose proof (Nsome x) as H. pose proof (Nplain x) as H'. destruct (nstr x) as [|h r]; [congruence|].
    exists h, (r ++ s). split; [reflexivity|]. intros ->. apply (H' "]"%char); cbn; auto.
Qed.
Lemma name_code o o' s t : identifier (cls N o) -> identifier (cls N o') -> numbers N (params N o) -> numbers N (params N o') ->
  name_of N ntrue nstr o ++ ", " ++ s = name_of N ntrue nstr o' ++ ", " ++ t -> cls N o = cls N o' /\ params N o = params N o' /\ s = t.
Proof.
  intros Hc Hc' Hn Hn' E. unfold name_of in E.
  destruct (params N o) as [l|], (params N o') as [m|]; rewrite ?sassoc in E;
    apply (stop ":(, ") in E; auto; try (cbn; tauto); destruct E as [Ec E]; try discriminate E; split; auto.
  - cbn [append] in E. tails E. unfold repr_list in E. rewrite !sassoc in E. cbn [append] in E. tails E.
    apply (joined _ _ is_number) in E; auto; [|apply numbers_coded|discriminate]. destruct E as [-> E]. injection E as ->. auto.
  - cbn [append] in E. injection E as ->. auto.
Qed.
Lemma op_repr_inj o o' :
  identifier (base N o) -> identifier (base N o') -> identifier (cls N o) -> identifier (cls N o') ->
  numbers N (params N o) -> numbers N (params N o') -> all_plain N (qubits N o) -> all_plain N (qubits N o') ->
  all_plain N (cond N o) -> all_plain N (cond N o') ->
  repr_op N ntrue nstr o = repr_op N ntrue nstr o' ->
  base N o = base N o' /\ cls N o = cls N o' /\ params N o = params N o' /\ qubits N o = qubits N o' /\ conditions N (cond N o) = conditions N (cond N o').
Proof.
  intros Hb Hb' Hc Hc' Hn Hn' Hq Hq' Hd Hd' E.
  assert (Form : forall o, exists w, repr_op N ntrue nstr o = "<" ++ base N o ++ ": " ++ name_of N ntrue nstr o ++ ", " ++ "qubits=" ++ repr_opt (option_map (map repr_prim) (qubits N o)) ++ w /\
    w = match conditions N (cond N o) with [] => ">" | l => ", conditional: " ++ repr_tuple (map repr_prim l) ++ ">" end).
  { intros u. unfold repr_op, conditions. destruct (cond N u) as [[|b bs]|]; eexists; split; reflexivity. }
  destruct (Form o) as (w & F & W), (Form o') as (w' & F' & W'). rewrite F, F' in E. clear F F' Form. cbn [append] in E. tails E.
  apply (stop ":(, ") in E; auto; try (cbn; tauto). destruct E as [Eb E]. tails E.
  change (name_of N ntrue nstr o ++ ", " ++ ("qubits=" ++ repr_opt (option_map (map repr_prim) (qubits N o)) ++ w) = name_of N ntrue nstr o' ++ ", " ++ ("qubits=" ++ repr_opt (option_map (map repr_prim) (qubits N o')) ++ w')) in E.
  apply name_code in E; auto. destruct E as (Ec & Ep & E). cbn [append] in E. tails E. apply opt_code in E; auto. destruct E as [Eq E].
  repeat split; auto. rewrite W, W' in E. clear W W'.
  assert (Q : Forall plain_id (conditions N (cond N o)) /\ Forall plain_id (conditions N (cond N o'))).
  { clear -Hd Hd'. destruct (cond N o), (cond N o'); cbn in *; auto. }
  destruct Q as [Q Q']. destruct (conditions N (cond N o)) as [|x l], (conditions N (cond N o')) as [|y m]; try discriminate E; auto.
  cbn [append] in E. tails E. apply tuple_code in E; tauto.
Qed.
End Op.

Lemma measurement_repr_inj qs bs c qs' bs' c' :
  all_plain N qs -> all_plain N bs -> all_plain N qs' -> all_plain N bs' ->
  repr_measurement N ntrue nstr qs bs c = repr_measurement N ntrue nstr qs' bs' c' -> qs = qs' /\ bs = bs'.
Proof.
  intros H1 H2 H3 H4 E. unfold repr_measurement in E. cbn [append] in E. tails E. apply opt_code in E; auto. destruct E as [-> E].
  tails E. apply opt_code in E; auto. destruct E as [-> _]. auto.
Qed.

(** ** Objects of programs *)
Variable alphanum : list ascii.
Lemma chars_join l : chars_of (string_of_list_ascii l) = l.
Proof. induction l; cbn; congruence. Qed.
Lemma objects_plain xs len bat a p : NoDup alphanum -> (forall c, In c (chars_of ",>") -> ~ In c alphanum) ->
  nth_error (snd (pruns N alphanum xs (reset alphanum len bat, []))) a = Some p -> has_id N p -> plain_id p.
Proof.
  intros Hn Ha E Hp. destruct (runs_ids N alphanum xs (reset alphanum len bat, [])) as (s & _ & H). cbn in H.
  assert (Q : forall i, In i (idof N p) -> without ",>" i).
  { intros i Hi. assert (Hi' : In i (ids N (snd (pruns N alphanum xs (reset alphanum len bat, []))))) by (eapply ids_nth; eauto).
    rewrite H in Hi'. apply in_map_iff in Hi'. destruct Hi' as (x & <- & Hx). apply (ids_wellformed_lemma alphanum Hn) in Hx. destruct Hx as [Hx _].
    intros c Hc Hin. rewrite chars_join in Hin. apply (Ha c Hc). eapply subseq_In; eauto. }
  destruct p as [l i|l i v|n v]; cbn in *; try contradiction; apply Q; auto.
Qed.
Lemma objects_print xs len bat a b p q : NoDup alphanum -> (forall c, In c (chars_of ",>") -> ~ In c alphanum) ->
  nth_error (snd (pruns N alphanum xs (reset alphanum len bat, []))) a = Some p -> nth_error (snd (pruns N alphanum xs (reset alphanum len bat, []))) b = Some q ->
  has_id N p -> has_id N q -> (repr_prim p = repr_prim q <-> a = b).
Proof.
  intros Hn Ha Ea Eb Hp Hq. split.
  - intros E. apply prim_repr_inj in E; [|eapply objects_plain; eauto|eapply objects_plain; eauto]. subst q.
    destruct p as [l i|l i v|n v]; cbn in Hp; try contradiction; eapply (ids_once N _ (nodup_ids N alphanum xs len bat Hn) a b); eauto; cbn; auto.
  - intros <-. congruence.
Qed.
End Print.

(** ** Circuits *)
Lemma chars_all f s : chars f s = true -> forall c, In c (chars_of s) -> f c = true.
Proof.
  induction s as [|d s IH]; cbn; intros H c Hc; [contradiction|]. apply andb_prop in H. destruct H as [H1 H2]. destruct Hc as [<-|Hc]; auto.
Qed.
Lemma str_plain n : without ",>" (str n).
Proof.
  intros c Hc Hin. pose proof (chars_all _ _ (proj2 (str_word n)) c Hin) as H. cbn in Hc. destruct Hc as [<-|[<-|[]]]; discriminate H.
Qed.
Lemma circuit_repr_inj c q b n c' q' b' n' : identifier c -> identifier c' ->
  repr_circuit c q b n = repr_circuit c' q' b' n' -> c = c' /\ q = q' /\ b = b' /\ n = n'.
Proof.
  intros Hc Hc' E. unfold repr_circuit in E. tails E.
  apply (stop ":(, ") in E; auto; try (cbn; tauto). destruct E as [Ec E]. tails E.
  apply (stop ",>") in E; try apply str_plain; try (cbn; tauto). destruct E as [Eq E]. tails E.
  apply (stop ",>") in E; try apply str_plain; try (cbn; tauto). destruct E as [Eb E]. tails E.
  apply (stop ",>") in E; try apply str_plain; try (cbn; tauto). destruct E as [En E].
  repeat split; auto; now apply str_inj.
Qed.

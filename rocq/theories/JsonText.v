(** Texts of the archive writer, and what the parser makes of them. *)
From Coq Require Import String Ascii ZArith List Bool Lia DecimalString DecimalZ.
From Verif Require Import Base DateModel DateSpec DateProofs StringModel StringSpec DictModel SplatModel SplatFileModel ShareProofs JsonModel JsonSpec.
Import ListNotations.
Open Scope Z_scope.

(** * Texts and documents *)
Definition ends (s : str) : Prop := match s with [] => True | c :: _ => c = comma \/ c = "}"%char \/ c = "]"%char end.
Definition reads (t : str) (j : json) : Prop := forall f rest, (length t <= f)%nat -> ends rest -> parse_value f (t ++ rest) = Some (j, rest).

Lemma safe_parse s rest : safe s -> parse_text (s ++ quote :: rest) = Some (s, rest).
Proof.
  induction 1 as [|c s (H1 & H2 & H3) Hs IH]; [reflexivity|]. cbn [app parse_text].
  destruct (Ascii.eqb_spec c quote); [congruence|]. destruct (Ascii.eqb_spec c "\"); [congruence|].
  replace (Nat.ltb (nat_of_ascii c) 32) with false by (symmetry; apply Nat.ltb_ge; exact H3). now rewrite IH.
Qed.
Lemma safe_c_str s : safe s -> c_str s = s.
Proof.
  induction 1 as [|c s (H1 & H2 & H3) Hs IH]; [reflexivity|]. cbn [c_str]. destruct (Ascii.eqb_spec c nul) as [->|]; [exfalso; clear -H3; cbn in H3; lia|]. now rewrite IH.
Qed.
Lemma reads_quoted s : safe s -> reads (quoted s) (JStr s).
Proof.
  intros Hs f rest Hf _. unfold quoted in *. destruct f as [|f]; [cbn in Hf; lia|]. cbn [app parse_value]. rewrite Ascii.eqb_refl.
  replace ((s ++ [quote]) ++ rest) with (s ++ quote :: rest) by (rewrite <- app_assoc; reflexivity). now rewrite safe_parse.
Qed.
Lemma after_app w rest : after w (w ++ rest) = Some rest.
Proof. induction w as [|a w IH]; [now destruct rest|]. cbn [app after]. now rewrite Ascii.eqb_refl. Qed.
Lemma reads_bool (b : bool) : reads (lit (if b then "true" else "false")) (JBool b).
Proof. intros f rest Hf _. destruct f as [|f]; [destruct b; cbn in Hf; lia|]. destruct b; destruct rest; reflexivity. Qed.
Lemma span_app t rest : Forall (fun c => in_number c = true) t -> ends rest -> span_number (t ++ rest) = (t, rest).
Proof.
  induction 1 as [|c t H Ht IH]; intros He.
  - destruct rest as [|c rest]; [reflexivity|]. cbn [app span_number]. destruct He as [->|[->| ->]]; reflexivity.
  - cbn [app span_number]. rewrite H, IH by exact He. reflexivity.
Qed.
Lemma number_not c : in_number c = true -> Ascii.eqb c quote = false /\ Ascii.eqb c "{" = false /\ Ascii.eqb c "[" = false.
Proof.
  intros H. repeat split; apply Ascii.eqb_neq; intros ->; discriminate.
Qed.
Lemma reads_number t : Forall (fun c => in_number c = true) t -> json_number t = true -> reads t (JNum t).
Proof.
  intros Ht Hn f rest Hf He. destruct t as [|c t]; [discriminate|]. destruct f as [|f]; [cbn in Hf; lia|].
  pose proof (Forall_inv Ht) as Hc. cbn beta in Hc. destruct (number_not c Hc) as (E1 & E2 & E3). cbn [app]. cbn [parse_value]. rewrite E1, E2, E3, Hc.
  change (c :: t ++ rest) with ((c :: t) ++ rest). rewrite span_app by assumption. now rewrite Hn.
Qed.
Lemma digit_number c : SplatFileModel.digit c = true -> in_number c = true.
Proof. destruct c as [[][][][][][][][]]; vm_compute; congruence. Qed.
Lemma skip_digits_app i rest : Forall (fun c => SplatFileModel.digit c = true) i -> match rest with [] => True | c :: _ => SplatFileModel.digit c = false end ->
  skip_digits (i ++ rest) = (length i, rest).
Proof.
  induction 1 as [|c i H Hi IH]; intros Hr.
  - destruct rest as [|c rest]; [reflexivity|]. cbn [app skip_digits length]. now rewrite Hr.
  - cbn [app skip_digits length]. now rewrite H, IH.
Qed.
Lemma digit_not_minus c : SplatFileModel.digit c = true -> Ascii.eqb c "-" = false.
Proof. intros H. apply Ascii.eqb_neq. intros ->. discriminate. Qed.
Lemma whole_number i : digits i -> (i = lit "0" \/ hd "0"%char i <> "0"%char) -> Forall (fun c => in_number c = true) i /\ json_number i = true.
Proof.
  intros [Hn Hd] Hz. split; [eapply Forall_impl; [|exact Hd]; apply digit_number|]. unfold json_number. destruct i as [|c i]; [congruence|].
  pose proof (Forall_inv Hd) as Hc. cbn beta in Hc. rewrite digit_not_minus by exact Hc.
  rewrite <- (app_nil_r (c :: i)) at 1. rewrite skip_digits_app by (exact Hd || exact Logic.I). cbn [length].
  rewrite andb_true_r. destruct Hz as [E|E]; [unfold lit in E; injection E as -> ->; reflexivity|].
  cbn [hd] in E. apply Ascii.eqb_neq in E. rewrite E. apply orb_true_r.
Qed.
Lemma decimal_number t : decimal t -> Forall (fun c => in_number c = true) t /\ json_number t = true.
Proof.
  intros (m & i & f & -> & Hm & [Hi Di] & [Hf Df] & Hz).
  assert (Forall (fun c => in_number c = true) (i ++ "."%char :: f)) as Hall.
  { apply Forall_app. split; [eapply Forall_impl; [|exact Di]; apply digit_number|]. constructor; [reflexivity|]. eapply Forall_impl; [|exact Df]; apply digit_number. }
  split; [apply Forall_app; split; [destruct Hm as [->| ->]; repeat constructor|exact Hall]|].
  unfold json_number. destruct i as [|c i]; [congruence|]. pose proof (Forall_inv Di) as Hc. cbn beta in Hc.
  assert (match m ++ (c :: i) ++ "."%char :: f with c0 :: r => if Ascii.eqb c0 "-" then r else m ++ (c :: i) ++ "."%char :: f | [] => [] end = (c :: i) ++ "."%char :: f) as E.
  { destruct Hm as [->| ->]; cbn [app lit list_ascii_of_string]; [now rewrite digit_not_minus by exact Hc|reflexivity]. }
  rewrite E. rewrite skip_digits_app by (exact Di || reflexivity). cbn [length app]. change (Ascii.eqb "." ".") with true. cbv iota.
  rewrite <- (app_nil_r f). rewrite skip_digits_app by (exact Df || exact Logic.I). destruct f as [|d f]; [congruence|]. cbn [length].
  change (exponent []) with true. rewrite andb_true_r.
  destruct Hz as [G|G]; [unfold lit in G; injection G as -> ->; reflexivity|]. cbn [hd] in G. apply Ascii.eqb_neq in G. rewrite G. apply orb_true_r.
Qed.
Lemma reads_decimal t : decimal t -> reads t (JNum t).
Proof. intros H. destruct (decimal_number t H). now apply reads_number. Qed.
Lemma point_uint s : In "."%char (list_ascii_of_string s) -> NilEmpty.uint_of_string s = None.
Proof.
  induction s as [|c s IH]; [intros []|]. cbn [list_ascii_of_string]. intros [->|H]; [cbn; now destruct (NilEmpty.uint_of_string s)|].
  cbn [NilEmpty.uint_of_string]. rewrite IH by exact H. destruct c as [[][][][][][][][]]; reflexivity.
Qed.
Lemma decimal_double t : decimal t -> json_double t = true.
Proof.
  intros (m & i & f & -> & Hm & _). unfold json_double, whole.
  assert (forall s, In "."%char (list_ascii_of_string s) -> NilZero.uint_of_string s = None) as G.
  { intros s Hs. destruct s as [|c s]; [reflexivity|]. cbn [NilZero.uint_of_string]. now apply point_uint. }
  assert (NilZero.int_of_string (string_of_list_ascii (m ++ i ++ "."%char :: f)) = None) as ->; [|reflexivity].
  assert (In "."%char (i ++ "."%char :: f)) as Hin by (apply in_or_app; right; now left).
  set (u := i ++ "."%char :: f) in *. clearbody u.
  assert (forall s, In "."%char (list_ascii_of_string s) -> NilZero.int_of_string s = None) as G2.
  { intros s Hs. destruct s as [|c s]; [reflexivity|]. unfold NilZero.int_of_string. destruct (Ascii.ascii_dec c "-") as [->|Hne].
    - destruct Hs as [Hs|Hs]; [discriminate|]. cbn. now rewrite G.
    - assert (NilZero.uint_of_string (String c s) = None) as E by (apply G; exact Hs). rewrite E. clear -Hne. destruct c as [[][][][][][][][]]; cbn; try reflexivity; congruence. }
  apply G2. rewrite list_ascii_of_string_of_list_ascii. apply in_or_app. now right.
Qed.

(** * The first character of a value *)
Lemma reads_first t j : reads t j -> exists c r, t = c :: r /\ white c = false /\ c <> "]"%char /\ c <> "}"%char.
Proof.
  intros H. pose proof (H (S (length t)) [] ltac:(lia) Logic.I) as E. rewrite app_nil_r in E. destruct t as [|c r]; [discriminate|].
  exists c, r. split; [reflexivity|].
  assert (forall x, In x [" "%char; "009"%char; "010"%char; "013"%char; "]"%char; "}"%char] -> c <> x) as G.
  { intros x Hx ->. cbn [In] in Hx. repeat (destruct Hx as [<-|Hx]; [cbn in E; discriminate|]). contradiction. }
  repeat split; try (apply G; cbn; tauto).
  unfold white. cbn [existsb]. repeat (match goal with |- context [Ascii.eqb c ?x] => destruct (Ascii.eqb_spec c x) as [->|_]; [exfalso; eapply G; [|reflexivity]; cbn; tauto|] end). reflexivity.
Qed.
Lemma skip_reads t j rest : reads t j -> skip_white (t ++ rest) = t ++ rest.
Proof. intros H. destruct (reads_first t j H) as (c & r & -> & Hw & _). cbn [app skip_white]. now rewrite Hw. Qed.

Ltac lens H := repeat progress (cbn [length app] in H; rewrite ?app_length in H); repeat progress (cbn [length app]; rewrite ?app_length); lia.
(** * Objects and arrays *)
Definition entry (e : str * str) : str := quoted (fst e) ++ ":"%char :: " "%char :: snd e.
Definition more (es : list (str * str)) : str := flat_map (fun e => comma :: newline :: entry e) es.
Definition reads_all (es : list (str * str)) (js : list (str * json)) : Prop := Forall2 (fun e d => fst e = fst d /\ safe (fst e) /\ reads (snd e) (snd d)) es js.
Lemma more_ends es rest : ends (more es ++ "}"%char :: rest).
Proof. destruct es as [|e es]; cbn; tauto. Qed.
Lemma parse_more es js : reads_all es js -> forall e d f rest, fst e = fst d -> safe (fst e) -> reads (snd e) (snd d) ->
  (length (entry e ++ more es) <= f)%nat -> parse_members (S f) (entry e ++ more es ++ "}"%char :: rest) = Some (d :: js, rest).
Proof.
  induction 1 as [|e' d' es js (A1 & A2 & A3) Hall IH]; intros [n t] [n' j] f rest E1 E2 E3 Hf; cbn [fst snd] in *; subst n'.
  - unfold entry, quoted in *. cbn [fst snd more flat_map app] in *. cbn [parse_members]. rewrite Ascii.eqb_refl.
    replace (((n ++ [quote]) ++ ":"%char :: " "%char :: t) ++ "}"%char :: rest) with (n ++ quote :: ":"%char :: " "%char :: t ++ "}"%char :: rest)
      by (rewrite <- !app_assoc; cbn [app]; reflexivity).
    rewrite safe_parse by exact E2. cbn [skip_white]. change (white ":") with false. cbv iota. rewrite Ascii.eqb_refl. cbn [skip_white]. change (white " ") with true. cbv iota.
    rewrite (skip_reads t j) by exact E3. rewrite E3; [|lens Hf|cbn; tauto].
    cbn [skip_white]. change (white "}") with false. cbv iota. rewrite Ascii.eqb_refl. reflexivity.
  - assert (exists x, more (e' :: es) ++ "}"%char :: rest = comma :: x /\ skip_white x = entry e' ++ more es ++ "}"%char :: rest) as (x & X1 & X2).
    { eexists. unfold more at 1. cbn [flat_map app]. split; [reflexivity|]. cbn [skip_white]. change (white newline) with true. cbv iota. fold (more es). rewrite <- app_assoc.
      unfold entry, quoted. cbn [app skip_white]. change (white quote) with false. reflexivity. }
    rewrite X1. unfold entry, quoted in Hf |- *. cbn [fst snd app] in *. cbn [parse_members]. rewrite Ascii.eqb_refl.
    replace (((n ++ [quote]) ++ ":"%char :: " "%char :: t) ++ comma :: x) with (n ++ quote :: ":"%char :: " "%char :: t ++ comma :: x)
      by (rewrite <- !app_assoc; cbn [app]; reflexivity).
    rewrite safe_parse by exact E2. cbn [skip_white]. change (white ":") with false. cbv iota. rewrite Ascii.eqb_refl. cbn [skip_white]. change (white " ") with true. cbv iota.
    rewrite (skip_reads t j) by exact E3. rewrite E3; [|lens Hf|cbn; tauto].
    cbn [skip_white]. change (white comma) with false. cbv iota. change (Ascii.eqb comma "}") with false. cbv iota. rewrite Ascii.eqb_refl, X2.
    destruct f as [|f]; [cbn [length app] in Hf; lia|]. rewrite (IH e' d' f rest); auto.
    unfold more in Hf. cbn [flat_map] in Hf. fold (more es) in Hf. clear - Hf. lens Hf.
Qed.
Lemma reads_obj w e d es js : white w = true -> fst e = fst d -> safe (fst e) -> reads (snd e) (snd d) -> reads_all es js ->
  reads ("{"%char :: w :: entry e ++ more es ++ lit "}") (JObj (d :: js)).
Proof.
  intros Hw E1 E2 E3 Hall f rest Hf _. cbn [length] in Hf. destruct f as [|[|f]]; [lia|lia|]. cbn [app]. cbn [parse_value].
  change (Ascii.eqb "{" quote) with false. cbv iota. rewrite Ascii.eqb_refl. cbn [skip_white]. rewrite Hw.
  replace ((entry e ++ more es ++ lit "}") ++ rest) with (entry e ++ more es ++ "}"%char :: rest) by (rewrite <- !app_assoc; reflexivity).
  assert (exists q, entry e ++ more es ++ "}"%char :: rest = quote :: q) as (q & Q) by (unfold entry, quoted; cbn [app]; eauto).
  rewrite Q. cbn [skip_white]. change (white quote) with false. cbv iota. change (Ascii.eqb quote "}") with false. cbv iota. rewrite <- Q.
  rewrite (parse_more es js Hall e d f rest E1 E2 E3); [reflexivity|]. rewrite !app_length in *. cbn [length] in Hf. change (length (lit "}")) with 1%nat in Hf. lia.
Qed.
Definition blanks (s : str) : Prop := Forall (fun c => white c = true) s.
Lemma skip_blanks s r : blanks s -> skip_white (s ++ r) = skip_white r.
Proof. induction 1 as [|c s H Hs IH]; [reflexivity|]. cbn [app skip_white]. now rewrite H. Qed.
Lemma joined_cons sep t t' ts : joined sep (t :: t' :: ts) = t ++ sep ++ joined sep (t' :: ts). Proof. reflexivity. Qed.
Lemma parse_joined sep ts : forall js t j f rest, blanks sep -> reads t j -> Forall2 reads ts js ->
  (length (joined (comma :: sep) (t :: ts)) <= f)%nat -> parse_elements (S f) (joined (comma :: sep) (t :: ts) ++ "]"%char :: rest) = Some (j :: js, rest).
Proof.
  induction ts as [|t' ts IH]; intros js t j f rest Hs Ht Hall Hf; inversion Hall as [|? j' ? js' H1 H2]; subst.
  - cbn [joined] in *. cbn [parse_elements]. rewrite Ht; [|exact Hf|cbn; tauto]. cbn [skip_white]. change (white "]") with false. cbv iota. now rewrite Ascii.eqb_refl.
  - rewrite joined_cons in *. rewrite <- !app_assoc. cbn [parse_elements]. rewrite Ht; [|rewrite app_length in Hf; lia|cbn; tauto].
    cbn [app skip_white]. change (white comma) with false. cbv iota. change (Ascii.eqb comma "]") with false. cbv iota. rewrite Ascii.eqb_refl. rewrite skip_blanks by exact Hs.
    assert (skip_white (joined (comma :: sep) (t' :: ts) ++ "]"%char :: rest) = joined (comma :: sep) (t' :: ts) ++ "]"%char :: rest) as ->.
    { destruct (reads_first t' j' H1) as (c & r & -> & Hw & _). destruct ts; cbn [joined app skip_white]; now rewrite Hw. }
    destruct f as [|f]; [rewrite !app_length in Hf; cbn [length] in Hf; lia|]. rewrite (IH js' t' j' f rest); auto.
    rewrite !app_length in Hf. cbn [length] in Hf. lia.
Qed.
Lemma reads_arr sep ts js : blanks sep -> Forall2 reads ts js -> reads ("["%char :: joined (comma :: sep) ts ++ lit "]") (JArr js).
Proof.
  intros Hs Hall f rest Hf _. cbn [length] in Hf. destruct f as [|[|f]]; [lia|rewrite app_length in Hf; cbn in Hf; lia|]. cbn [app]. rewrite <- app_assoc. change (lit "]" ++ rest) with ("]"%char :: rest).
  cbn [parse_value]. change (Ascii.eqb "[" quote) with false. change (Ascii.eqb "[" "{") with false. cbv iota. rewrite Ascii.eqb_refl.
  inversion Hall as [|t j ts' js' H1 H2]; subst.
  - cbn [joined app skip_white]. change (white "]") with false. cbv iota. now rewrite Ascii.eqb_refl.
  - assert (exists c q, joined (comma :: sep) (t :: ts') ++ "]"%char :: rest = c :: q /\ white c = false /\ c <> "]"%char) as (c & q & Q1 & Q2 & Q3).
    { destruct (reads_first t j H1) as (c & r & -> & Hw & Hb & _). destruct ts'; cbn [joined app]; eauto. }
    rewrite Q1. cbn [skip_white]. rewrite Q2. destruct (Ascii.eqb_spec c "]"); [congruence|]. rewrite <- Q1.
    rewrite (parse_joined sep ts' js' t j f rest Hs H1 H2); [reflexivity|]. rewrite app_length in Hf. change (length (lit "]")) with 1%nat in Hf. lia.
Qed.
Lemma reads_parse t j : reads t j -> parse t = Some j.
Proof.
  intros H. unfold parse. pose proof (skip_reads t j [] H) as E. rewrite app_nil_r in E. rewrite E. pose proof (H (length t) [] (le_n _) Logic.I) as G. rewrite app_nil_r in G. now rewrite G.
Qed.

(** * Whole numbers *)
Lemma uint_digits u : Forall (fun c => SplatFileModel.digit c = true) (list_ascii_of_string (NilEmpty.string_of_uint u)).
Proof. induction u; cbn [NilEmpty.string_of_uint list_ascii_of_string]; constructor; auto. Qed.
Lemma nzhead_first u : match Decimal.nzhead u with Decimal.D0 _ => False | _ => True end.
Proof. induction u; cbn [Decimal.nzhead]; auto. Qed.
Lemma show_int_digits z : 0 <= z -> digits (show_int z) /\ (show_int z = lit "0" \/ hd "0"%char (show_int z) <> "0"%char).
Proof.
  intros Hz. assert (exists u, Z.to_int z = Decimal.Pos u) as (u & Eu) by (destruct z; [exists (Decimal.D0 Decimal.Nil)|exists (Pos.to_uint p)|lia]; reflexivity).
  assert (Decimal.unorm u = u) as Hn.
  { pose proof (to_of (Z.to_int z)) as G. rewrite of_to, Eu in G. cbn [Decimal.norm] in G. injection G as G. now symmetry. }
  unfold show_int. rewrite Eu. cbn [NilZero.string_of_int].
  unfold Decimal.unorm in Hn. pose proof (nzhead_first u) as Hf. destruct (Decimal.nzhead u) eqn:Eh; subst u; try contradiction; cbn [NilZero.string_of_uint];
    (split; [split; [discriminate|]|]); try apply uint_digits; try (right; cbn; discriminate). left. reflexivity.
Qed.
Lemma reads_int z : 0 <= z -> reads (show_int z) (JNum (show_int z)).
Proof. intros H. destruct (show_int_digits z H) as [H1 H2]. destruct (whole_number _ H1 H2). now apply reads_number. Qed.
Lemma json_int_show z : -2147483648 <= z <= 2147483647 -> json_int (show_int z) = Some z.
Proof.
  intros H. unfold json_int, whole, show_int. rewrite string_of_list_ascii_of_string. destruct (to_int_not_nil z).
  rewrite NilZero.isi by assumption. rewrite of_to. replace ((-2147483648 <=? z) && (z <=? 2147483647)) with true by lia. reflexivity.
Qed.
Lemma digits_safe s : Forall (fun c => SplatFileModel.digit c = true) s -> safe s.
Proof.
  intros H. eapply Forall_impl; [|exact H]. cbn beta. intros c Hc.
  repeat split; [intros ->; discriminate|intros ->; discriminate|]. unfold SplatFileModel.digit in Hc. apply andb_true_iff in Hc as [Hc1 _]. apply Nat.leb_le in Hc1. lia.
Qed.
Lemma show_int_safe z : 0 <= z -> safe (show_int z).
Proof. intros H. apply digits_safe. apply (show_int_digits z H). Qed.
Lemma safe_app a b : safe a -> safe b -> safe (a ++ b).
Proof. intros. apply Forall_app. auto. Qed.

From Coq Require Import String Ascii ZArith List Bool Lia ZifyBool DecimalString.
From Verif Require Import Base DateModel StringModel StringSpec StringProofs OMap DictModel DictSpec DictProofs SplatModel SplatSpec SplatProofs ShareModel ShareSpec ShareProofs SplatFileModel SplatFileSpec SplatFileProofs SplatFileTree SplatFileShare.
Import ListNotations.
Open Scope Z_scope.

Lemma fits_lines {N T} as_int show_double (show_time : T -> str) (g : grid N T) : 0 <= g_cols g ->
  sheet_fits as_int show_double show_time g -> lines_fit N T as_int show_double show_time g.
Proof. intros Hc H r Hr. apply (H r); [exact Hr|]. apply sheet_row_ok; lia. Qed.

(** ** Text *)
Lemma same_ci a b : ci_eqb a b = false <-> ~ same_up_to_case a b.
Proof. rewrite <- ci_eqb_iff. destruct (ci_eqb a b); split; congruence. Qed.
Lemma removelast_le (l : str) : (length (removelast l) <= length l)%nat.
Proof. induction l as [|x [|y l] IH]; cbn [removelast length] in *; lia. Qed.
Lemma as_cell_text {N T} (value_of : str -> N) s : s <> [] ->
  (as_cell (T := T) value_of s = CStr s <->
   ~ (hd_error s = Some "="%char /\ last s "."%char = "="%char) /\ ~ same_up_to_case s (lit "TRUE") /\ ~ same_up_to_case s (lit "FALSE") /\
   (forallb number_char s && number_syntax s = false)).
Proof.
  intros Hne. destruct s as [|c r]; [congruence|]. cbn [as_cell hd_error]. rewrite (last_default r c c "."%char). rewrite <- !same_ci.
  destruct (Ascii.eqb c "="%char && Ascii.eqb (last (c :: r) "."%char) "="%char) eqn:E.
  - apply andb_true_iff in E as [E1 E2]. apply Ascii.eqb_eq in E1, E2. split.
    + intros G. exfalso. injection G as G. apply (f_equal (@List.length _)) in G. cbn [List.length] in G. pose proof (removelast_le r). lia.
    + intros (G & _). exfalso. apply G. split; congruence.
  - apply andb_false_iff in E. rewrite !Ascii.eqb_neq in E.
    destruct (ci_eqb (c :: r) (lit "TRUE")); [split; [discriminate|intros (_ & G & _); discriminate]|].
    destruct (ci_eqb (c :: r) (lit "FALSE")); [split; [discriminate|intros (_ & _ & G & _); discriminate]|].
    destruct (forallb number_char (c :: r) && number_syntax (c :: r)) eqn:En; [split; [discriminate|intros (_ & _ & _ & G); congruence]|].
    split; [intros _|reflexivity]. repeat split. intros [G1 G2]. injection G1 as G1. tauto.
Qed.

(** ** Digits *)
Lemma digit_same c : digit c = is_digit c.
Proof. destruct c as [[] [] [] [] [] [] [] []]; reflexivity. Qed.
Lemma digit_facts c : digit c = true -> dull c /\ number_char c = true /\ sign c = false /\ Ascii.eqb c "="%char = false /\ Ascii.eqb c "."%char = false /\
  (forall a r, ci_eqb (c :: a) (lit "TRUE") = false /\ ci_eqb (c :: a) (lit "FALSE") = false /\ ci_eqb (c :: r) (lit "FALSE") = false).
Proof. destruct c as [[] [] [] [] [] [] [] []]; try discriminate; intros _; (split; [repeat split; discriminate|]); repeat split. Qed.
Lemma skip_digits_all l : Forall (fun c => digit c = true) l -> skip_digits l = (length l, []).
Proof. induction 1 as [|c l Hc Hl IH]; [reflexivity|]. cbn [skip_digits length]. now rewrite Hc, IH. Qed.
Lemma uint_digits u : Forall (fun c => digit c = true) (list_ascii_of_string (NilEmpty.string_of_uint u)).
Proof. induction u; cbn; constructor; auto. Qed.
Lemma uint0_digits u : exists c r, list_ascii_of_string (NilZero.string_of_uint u) = c :: r /\ Forall (fun c => digit c = true) (c :: r).
Proof. destruct u; eexists _, _; (split; [reflexivity|]); constructor; try reflexivity; try apply uint_digits; constructor. Qed.
Lemma number_chars l : Forall (fun c => digit c = true) l -> forallb number_char l = true.
Proof. intros H. apply forallb_forall. rewrite Forall_forall in H. intros c Hc. apply digit_facts. now apply H. Qed.
Lemma digits_syntax l : l <> [] -> Forall (fun c => digit c = true) l -> number_syntax l = true /\ number_syntax ("-"%char :: l) = true.
Proof.
  intros Hne H. assert (skip_digits l = (length l, [])) as E by now apply skip_digits_all.
  assert (skip_sign l = l) as Es.
  { destruct l as [|c l]; [congruence|]. inversion H as [|? ? Hc _]; subst. cbn [skip_sign]. apply digit_facts in Hc as (_ & _ & -> & _). reflexivity. }
  unfold number_syntax. change (skip_sign ("-"%char :: l)) with l. rewrite Es, E. destruct l; [congruence|]. split; reflexivity.
Qed.
Lemma as_cell_int {N T} (value_of : str -> N) z : as_cell (T := T) value_of (show_int z) = CNum (value_of (show_int z)).
Proof.
  unfold show_int. destruct (Z.to_int z) as [u|u]; cbn [NilZero.string_of_int list_ascii_of_string].
  - destruct (uint0_digits u) as (c & r & -> & H). cbn [as_cell]. inversion H as [|? ? Hc Hr]; subst. destruct (digit_facts c Hc) as (_ & _ & _ & E1 & _ & E2).
    rewrite E1. cbn [andb]. destruct (E2 r r) as (-> & -> & _). rewrite (number_chars _ H). destruct (digits_syntax (c :: r) ltac:(discriminate) H) as [-> _]. reflexivity.
  - destruct (uint0_digits u) as (c & r & -> & H). cbn [as_cell]. change (Ascii.eqb "-"%char "="%char) with false. cbn [andb].
    change (ci_eqb ("-"%char :: c :: r) (lit "TRUE")) with false. change (ci_eqb ("-"%char :: c :: r) (lit "FALSE")) with false. cbv iota.
    change (forallb number_char ("-"%char :: c :: r)) with (forallb number_char (c :: r)). rewrite (number_chars _ H).
    destruct (digits_syntax (c :: r) ltac:(discriminate) H) as [_ ->]. reflexivity.
Qed.

(** ** Dates *)
Lemma span_skip s : forall a b, span_digits s = (a, b) ->
  skip_digits (list_ascii_of_string s) = (String.length a, list_ascii_of_string b) /\
  (Forall dull (list_ascii_of_string b) -> Forall dull (list_ascii_of_string s)).
Proof.
  induction s as [|c s IH]; intros a b H; cbn [span_digits] in H.
  - injection H as <- <-. split; [reflexivity|auto].
  - cbn [list_ascii_of_string skip_digits]. rewrite digit_same. destruct (is_digit c) eqn:E.
    + destruct (span_digits s) as [a' b'] eqn:Es. injection H as <- <-. destruct (IH _ _ eq_refl) as [-> I2]. split; [reflexivity|].
      intros Hb. constructor; [|now apply I2]. rewrite <- digit_same in E. now apply digit_facts.
    + injection H as <- <-. split; [reflexivity|auto].
Qed.
Lemma match3_shape sep s r : dull sep -> match3 sep s = Some r -> exists n rest c q, list_ascii_of_string s = c :: q /\ digit c = true /\
  skip_digits (list_ascii_of_string s) = (S n, sep :: rest) /\ Forall dull (list_ascii_of_string s).
Proof.
  intros Hsep. unfold match3. destruct (span_digits s) as [a s1] eqn:E1. intros H. destruct (span_skip s a s1 E1) as [K1 D1].
  destruct a as [|a0 a]; [discriminate|]. destruct s1 as [|x s1]; [discriminate|].
  destruct (span_digits s1) as [b s2] eqn:E2. destruct (Ascii.eqb x sep) eqn:Ex; [|destruct b; discriminate]. apply Ascii.eqb_eq in Ex as ->.
  destruct (span_skip s1 b s2 E2) as [_ D2]. destruct b as [|b0 b]; [discriminate|]. destruct s2 as [|y s2]; [discriminate|].
  destruct (span_digits s2) as [c s3] eqn:E3. destruct (Ascii.eqb y sep) eqn:Ey; [|destruct c; discriminate]. apply Ascii.eqb_eq in Ey as ->.
  destruct (span_skip s2 c s3 E3) as [_ D3].
  assert (Forall dull (list_ascii_of_string s3)) as D4 by (destruct s3; [constructor|destruct c; discriminate]).
  destruct s as [|h s]; [discriminate|]. exists (String.length a), (list_ascii_of_string s1), h, (list_ascii_of_string s).
  split; [reflexivity|]. split; [|split; [exact K1|]].
  - cbn [span_digits] in E1. rewrite digit_same. destruct (is_digit h); [reflexivity|discriminate].
  - apply D1. cbn [list_ascii_of_string]. constructor; [exact Hsep|]. apply D2. cbn [list_ascii_of_string]. constructor; [exact Hsep|]. now apply D3.
Qed.
Lemma date_cell {N T} (value_of : str -> N) s : is_date_string s = true ->
  plain (list_ascii_of_string s) /\ as_cell (T := T) value_of (list_ascii_of_string s) = CStr (list_ascii_of_string s).
Proof.
  intros H. assert (exists sep r, (sep = "/"%char \/ sep = "-"%char) /\ match3 sep s = Some r) as (sep & r & Hsep & Hm).
  { unfold is_date_string in H. destruct (match3 "/"%char s) as [r|] eqn:E1; [exists "/"%char, r; auto|]. destruct (match3 "-"%char s) as [r|] eqn:E2; [exists "-"%char, r; auto|discriminate]. }
  destruct (match3_shape sep s r) as (n & rest & c & q & E & Hc & Hk & Hd); [destruct Hsep as [->| ->]; repeat split; discriminate|exact Hm|].
  split; [now apply dull_plain|]. rewrite E in *. cbn [as_cell]. destruct (digit_facts c Hc) as (_ & _ & Hs & E1 & _ & E2). rewrite E1. cbn [andb].
  destruct (E2 q q) as (-> & -> & _). replace (forallb number_char (c :: q) && number_syntax (c :: q)) with false; [reflexivity|]. symmetry.
  apply andb_false_iff. right. unfold number_syntax. cbn [skip_sign]. rewrite Hs, Hk. destruct Hsep as [->| ->]; reflexivity.
Qed.

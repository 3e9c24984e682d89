From Coq Require Import Ascii String ZArith List Bool Lia.
From Verif Require Import Base OMap StringModel StringSpec StringProofs DateModel DateSpec DateCivil DateFloat DateProofs DateTimeModel ScheduleModel PathModel IndexModel.
Import ListNotations.
Local Open Scope Z_scope.
Ltac Zify.zify_post_hook ::= Z.div_mod_to_equations.

Lemma find_in_skip chars a b : Forall (fun c => existsb (ceq c) chars = false) a -> forall k, find_in chars (a ++ b) k = find_in chars b (k + Z.of_nat (List.length a)).
Proof.
  induction 1 as [|c a Hc Ha IH]; intros k; [cbn [app List.length]; f_equal; lia|]. cbn [app find_in List.length]. rewrite Hc, IH. f_equal. lia.
Qed.
Lemma skipn_exact {A} (a b : list A) : skipn (List.length a) (a ++ b) = b.
Proof. induction a; [reflexivity|assumption]. Qed.
Lemma firstn_exact {A} (a b : list A) : firstn (List.length a) (a ++ b) = a.
Proof. induction a; cbn; [reflexivity|now f_equal]. Qed.
Lemma substr_mid a b c : substr (a ++ b ++ c) (Z.of_nat (List.length a)) (Z.of_nat (List.length b)) = Ok b.
Proof.
  unfold substr. replace (Z.of_nat (List.length a) <? 0) with false by lia. rewrite !app_length.
  replace (Z.of_nat (List.length a + (List.length b + List.length c)) <? Z.of_nat (List.length a)) with false by lia. cbn [orb].
  rewrite Nat2Z.id, skipn_exact. replace (Z.of_nat (List.length b) <? 0) with false by lia. now rewrite Nat2Z.id, firstn_exact.
Qed.
Lemma ceq_other c d : (code d < 65 \/ 90 < code d < 97 \/ 122 < code d < 128) -> ceq c d = true -> c = d.
Proof.
  intros Hd H. apply ceq_same in H. unfold same_letter in H. pose proof (code_range c). pose proof (code_range d).
  assert (code c = code d) as He by lia. unfold code in He. apply N2Z.inj in He. rewrite <- (ascii_N_embedding c), <- (ascii_N_embedding d). now f_equal.
Qed.
Definition no_char (x : ascii) (s : str) : Prop := ~ In x s.
Lemma no_bracket n : ~ In "]"%char n -> Forall (fun c => existsb (ceq c) (lit "]") = false) n.
Proof.
  intros H. apply Forall_forall. intros c Hc. cbn [lit list_ascii_of_string existsb]. rewrite orb_false_r. destruct (ceq c "]") eqn:E; [|reflexivity].
  apply ceq_other in E; [subst; contradiction|]. right. left. vm_compute. split; reflexivity.
Qed.
Definition tail (d : delivery) : str := match d with After t => lit ">" ++ t | At d => lit "@" ++ lit (to_string d) | Spot => [] end.
Lemma equity_name n d : index_name (Equity n d) = (lit "EQ[" ++ n ++ lit "]") ++ tail d.
Proof. cbn [index_name]. rewrite <- !app_assoc. reflexivity. Qed.
Lemma head_length n : List.length (lit "EQ[" ++ n ++ lit "]") = (4 + List.length n)%nat.
Proof. rewrite !app_length. change (List.length (lit "EQ[")) with 3%nat. change (List.length (lit "]")) with 1%nat. lia. Qed.
Lemma find_open n d : find_first_of (lit "[") (index_name (Equity n d)) 0 = 2 /\ find_first_of (lit ":[") (index_name (Equity n d)) 0 = 2.
Proof. split; reflexivity. Qed.
Lemma find_close n d : ~ In "]"%char n -> find_first_of (lit "]") (index_name (Equity n d)) 0 = 3 + Z.of_nat (List.length n).
Proof.
  intros H. unfold find_first_of. change (0 <? 0) with false. cbv iota. change (skipn (Z.to_nat 0) ?x) with x. cbn [index_name].
  change (find_in (lit "]") (lit "EQ[" ++ n ++ lit "]" ++ tail d) 0 = 3 + Z.of_nat (List.length n)).
  rewrite find_in_skip by (repeat constructor). change (0 + Z.of_nat (List.length (lit "EQ["))) with 3. rewrite find_in_skip by now apply no_bracket. reflexivity.
Qed.
Lemma find_tail n d chars : find_first_of chars (index_name (Equity n d)) (4 + Z.of_nat (List.length n)) = find_in chars (tail d) (4 + Z.of_nat (List.length n)).
Proof.
  unfold find_first_of. replace (4 + Z.of_nat (List.length n) <? 0) with false by lia. rewrite equity_name.
  replace (Z.to_nat (4 + Z.of_nat (List.length n))) with (List.length (lit "EQ[" ++ n ++ lit "]")) by (rewrite head_length; lia). now rewrite skipn_exact.
Qed.
Lemma take_name n d : substr (index_name (Equity n d)) 3 (Z.of_nat (List.length n)) = Ok n.
Proof. exact (substr_mid (lit "EQ[") n (lit "]" ++ tail d)). Qed.
Lemma take_rest n d c t : tail d = c :: t ->
  nth_error (index_name (Equity n d)) (Z.to_nat (4 + Z.of_nat (List.length n))) = Some c /\
  substr (index_name (Equity n d)) (5 + Z.of_nat (List.length n)) (Z.of_nat (List.length (index_name (Equity n d))) - (4 + Z.of_nat (List.length n)) - 1) = Ok t.
Proof.
  intros E. rewrite equity_name, E. set (h := lit "EQ[" ++ n ++ lit "]"). assert (List.length h = (4 + List.length n)%nat) as L by apply head_length. split.
  - replace (Z.to_nat (4 + Z.of_nat (List.length n))) with (List.length h) by lia. rewrite nth_error_app2 by lia. now rewrite Nat.sub_diag.
  - pose proof (substr_mid (h ++ [c]) t []) as M. rewrite app_nil_r, <- app_assoc in M. cbn [app] in M. rewrite app_length in M. cbn [List.length] in M.
    rewrite app_length. cbn [List.length]. rewrite <- M. f_equal; lia.
Qed.
Lemma equity_parse n d : ~ In "]"%char n ->
  equity_parser (index_name (Equity n d)) = match d with
    | At day => do e <- from_string (to_string day); Ok (Equity n (At e))
    | _ => Ok (Equity n d)
    end.
Proof.
  intros H. unfold equity_parser. destruct (find_open n d) as [-> _]. rewrite (find_close n d H). change (2 + 1) with 3.
  replace (3 + Z.of_nat (List.length n) - 2 - 1) with (Z.of_nat (List.length n)) by lia. rewrite take_name. cbn [obind].
  replace (3 + Z.of_nat (List.length n) + 1) with (4 + Z.of_nat (List.length n)) by lia. rewrite find_tail.
  destruct d as [day|t|]; cbn [tail].
  - change (find_in (lit "@>") (lit "@" ++ lit (to_string day)) (4 + Z.of_nat (List.length n))) with (4 + Z.of_nat (List.length n)).
    replace (4 + Z.of_nat (List.length n) =? npos) with false by (unfold npos; lia).
    destruct (take_rest n (At day) "@" (lit (to_string day)) eq_refl) as [-> E2]. replace (4 + Z.of_nat (List.length n) + 1) with (5 + Z.of_nat (List.length n)) by lia. rewrite E2.
    destruct (ascii_dec "@" "@") as [_|N]; [|now contradiction N]. cbn [obind]. unfold lit. now rewrite string_of_list_ascii_of_string.
  - change (find_in (lit "@>") (lit ">" ++ t) (4 + Z.of_nat (List.length n))) with (4 + Z.of_nat (List.length n)).
    replace (4 + Z.of_nat (List.length n) =? npos) with false by (unfold npos; lia).
    destruct (take_rest n (After t) ">" t eq_refl) as [-> E2]. replace (4 + Z.of_nat (List.length n) + 1) with (5 + Z.of_nat (List.length n)) by lia. rewrite E2. reflexivity.
  - reflexivity.
Qed.
(** A registry in which the prefix EQ leads to the parser of equity names. *)
Lemma parse_equity ps n d : mfind ci_compare ps (lit "EQ") = Some equity_parser -> ~ In "]"%char n ->
  parse_index ps (index_name (Equity n d)) = do i <- equity_parser (index_name (Equity n d)); Ok (Some i).
Proof.
  intros Hp H. unfold parse_index. destruct (find_open n d) as [_ ->]. change (2 =? npos) with false. cbv iota.
  assert (substr (index_name (Equity n d)) 0 2 = Ok (lit "EQ")) as -> by exact (substr_mid [] (lit "EQ") (lit "[" ++ n ++ lit "]" ++ tail d)).
  cbn [obind]. now rewrite Hp.
Qed.
Lemma to_string_inj a b : 1 <= a < 65536 -> 1 <= b < 65536 -> to_string a = to_string b -> a = b.
Proof.
  intros Ha Hb E. destruct (string_round_trip a Ha) as [Ra _]. destruct (string_round_trip b Hb) as [Rb _]. rewrite E, Rb in Ra.
  enough (ymd a = ymd b) as Y. { rewrite Y in Ra. destruct (in_bad_window (ymd b)); injection Ra; lia. }
  pose proof (civil_supported _ _ (ymd_civil a Ha) ltac:(lia)) as Sa. pose proof (civil_supported _ _ (ymd_civil b Hb) ltac:(lia)) as Sb. unfold to_string in E. destruct (ymd a) as [[y m] d], (ymd b) as [[y' m'] d'].
  pose proof (supported_year _ _ _ Sa) as (Y1 & Y2 & Y3). pose proof (supported_year _ _ _ Sb) as (Y4 & Y5 & Y6). pose proof (month_len_range y m). pose proof (month_len_range y' m').
  destruct (parse_ymd_text y m d ltac:(lia) ltac:(lia) ltac:(lia)) as [_ M1]. destruct (parse_ymd_text y' m' d' ltac:(lia) ltac:(lia) ltac:(lia)) as [_ M2]. rewrite E, M2 in M1. assert (pad4 y = pad4 y') as E1 by congruence. assert (pad2 m = pad2 m') as E2 by congruence. assert (pad2 d = pad2 d') as E3 by congruence.
  assert (y = y') by (assert (stoi (pad4 y) = stoi (pad4 y')) as Q by congruence; rewrite !stoi_pad4 in Q by lia; congruence).
  assert (m = m') by (assert (stoi (pad2 m) = stoi (pad2 m')) as Q by congruence; rewrite !stoi_pad2 in Q by lia; congruence).
  assert (d = d') by (assert (stoi (pad2 d) = stoi (pad2 d')) as Q by congruence; rewrite !stoi_pad2 in Q by lia; congruence). congruence.
Qed.

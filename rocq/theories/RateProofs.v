From Coq Require Import String Ascii ZArith List Bool Lia.
From Verif Require Import Base OMap StringModel StringSpec StringProofs DateModel DateSpec DateCivil DateFloat DateProofs HolidayModel ScheduleModel ScheduleProofs IndexModel IndexProofs SetupModel RateModel RateSpec.
Import ListNotations.
Local Open Scope Z_scope.
Ltac Zify.zify_post_hook ::= Z.div_mod_to_equations.

(** * Nominal maturity *)
Lemma month_range s : 1 <= s < 65536 -> 1 <= month s <= 12.
Proof.
  intros Hs. pose proof (ymd_civil s Hs) as Hc. destruct (civil_facts _ _ Hc) as (_ & Hv & _). unfold month. destruct (ymd s) as [[y m] d].
  apply valid_iff in Hv. cbn [fst snd]. lia.
Qed.
Lemma nominal_add_months s p c : 1 <= s < 65536 -> nominal_maturity s p c = Ok (add_months s (months p) false).
Proof.
  intros Hs. pose proof (month_range s Hs) as M. unfold nominal_maturity, add_months. cbv zeta. set (y := year s). set (m := month s) in *. set (d := day s).
  cbn [andb orb]. clearbody y m d.
  assert (Q : exists k r, Z.quot (months p) 12 = k /\ months p - 12 * k = r /\ months p = 12 * k + r /\ ((k = 0 /\ 1 <= r <= 6) \/ (k = 1 /\ r = 0))).
  { destruct p; cbn [months]; [exists 1, 0|exists 0, 6|exists 0, 3|exists 0, 1]; repeat split; try reflexivity; lia. }
  destruct Q as (k & r & -> & -> & E & K). rewrite E. cbn [carry].
  assert (C : (if m + (12 * k + r) <=? 12 then Ok (y, m + (12 * k + r)) else carry 1 (y + 1) (m + (12 * k + r) - 12)) =
              Ok (let '(yy2, mm2) := if 12 <? m + r then (y + k + 1, m + r - 12) else (y + k, m + r) in if mm2 <? 1 then (yy2 - 1, mm2 + 12) else (yy2, mm2))).
  { cbn [carry]. destruct (m + (12 * k + r) <=? 12) eqn:E1.
    - replace (12 <? m + r) with false by lia. replace (m + r <? 1) with false by lia. do 2 f_equal; lia.
    - replace (m + (12 * k + r) - 12 <=? 12) with true by lia. destruct (12 <? m + r) eqn:E2.
      + replace (m + r - 12 <? 1) with false by lia. do 2 f_equal; lia.
      + replace (m + r <? 1) with false by lia. do 2 f_equal; lia. }
  cbn [carry] in C |- *. rewrite C. cbn [obind]. clear C.
  destruct (if 12 <? m + r then _ else _) as [yy2 mm2]. destruct (if mm2 <? 1 then _ else _) as [yy3 mm3]. do 2 f_equal.
  destruct (days_in_month yy3 mm3 <? d) eqn:E3; lia.
Qed.

(** * Splitting names at commas *)
Lemma same_comma c : same_letter c "," -> c = ","%char.
Proof. intros H. apply ceq_same in H. apply ceq_other in H; [assumption|left; vm_compute; reflexivity]. Qed.
Lemma same_sym_letter c d : same_letter c d -> same_letter d c.
Proof. unfold same_letter. intros [H|[H|H]]; [left; congruence|right; right; exact H|right; left; exact H]. Qed.
Lemma split_comma a : forall b x y, ~ In ","%char a -> ~ In ","%char b -> same_up_to_case (a ++ ","%char :: x) (b ++ ","%char :: y) ->
  same_up_to_case a b /\ same_up_to_case x y.
Proof.
  induction a as [|c a IH]; intros [|d b] x y Ha Hb H; cbn [app] in H; inversion H as [|? ? ? ? H1 H2]; subst.
  - split; [constructor|assumption].
  - exfalso. apply Hb. left. apply same_comma, same_sym_letter, H1.
  - exfalso. apply Ha. left. apply same_comma, H1.
  - destruct (IH b x y) as [P Q]; [intros X; apply Ha; now right|intros X; apply Hb; now right|exact H2|]. split; [constructor; assumption|assumption].
Qed.
Lemma no_comma_split a : forall b y, ~ In ","%char a -> ~ same_up_to_case a (b ++ ","%char :: y).
Proof.
  induction a as [|c a IH]; intros [|d b] y Ha H; cbn [app] in H; inversion H as [|? ? ? ? H1 H2]; subst.
  - apply Ha. left. apply same_comma, H1.
  - apply (IH b y); [intros X; apply Ha; now right|exact H2].
Qed.
Lemma same_app a b x y : same_up_to_case a b -> same_up_to_case x y -> same_up_to_case (a ++ x) (b ++ y).
Proof. intros. apply Forall2_app; assumption. Qed.

(** ** The texts of the fixed parts *)
Lemma ccy_same a b : same_up_to_case (ccy_string a) (ccy_string b) -> a = b.
Proof. intros H. apply ci_compare_eq in H. destruct a, b; try reflexivity; vm_compute in H; discriminate. Qed.
Lemma rate_same a b : same_up_to_case (rate_string a) (rate_string b) -> a = b.
Proof. intros H. apply ci_compare_eq in H. destruct a, b; try reflexivity; vm_compute in H; discriminate. Qed.
Ltac find_comma := cbn [In lit list_ascii_of_string]; intros X; repeat (destruct X as [X|X]; [discriminate|]); contradiction.
Lemma ccy_no_comma c : ~ In ","%char (ccy_string c).
Proof. destruct c; unfold ccy_string; find_comma. Qed.
Lemma rate_no_comma r : ~ In ","%char (rate_string r).
Proof. destruct r; unfold rate_string; find_comma. Qed.
Lemma rate_not_empty r : rate_string r <> [].
Proof. destruct r; discriminate. Qed.
(** The text of a date has digits and dashes only. *)
Lemma digit_code n : 0 <= n <= 9 -> 48 <= code (digit n) <= 57.
Proof. intros H. unfold code, digit. rewrite N_ascii_embedding by lia. lia. Qed.
Definition stiff (c : ascii) : Prop := code c < 65 /\ c <> ","%char.
Lemma stiff_digit n : 0 <= n <= 9 -> stiff (digit n).
Proof.
  intros H. pose proof (digit_code n H) as D. split; [lia|]. intros E. rewrite E in D. vm_compute in D. destruct D as [D _]. now apply D.
Qed.
Lemma to_string_stiff d : 1 <= d < 65536 -> Forall stiff (lit (to_string d)).
Proof.
  intros H. pose proof (civil_supported _ _ (ymd_civil d H) ltac:(lia)) as Sd. unfold to_string. destruct (ymd d) as [[y m] e].
  pose proof (supported_year _ _ _ Sd) as (Y1 & Y2 & Y3). pose proof (month_len_range y m).
  unfold pad4, pad2, lit. cbn [append list_ascii_of_string].
  repeat (constructor; [first [apply stiff_digit; lia | split; [vm_compute; reflexivity|discriminate]]|]). constructor.
Qed.
Lemma stiff_same a b : Forall stiff b -> same_up_to_case a b -> a = b.
Proof.
  intros F H. induction H as [|c d a b H1 H2 IH]; [reflexivity|]. inversion F; subst. f_equal; [|apply IH; assumption].
  apply ceq_same in H1. destruct H3 as [H3 _]. apply ceq_other in H1; [assumption|left; assumption].
Qed.
Lemma stiff_no_comma b : Forall stiff b -> ~ In ","%char b.
Proof. intros F H. rewrite Forall_forall in F. destruct (F _ H) as [_ N]. now apply N. Qed.

(** ** The texts of starts and maturities *)
Lemma postfix_plain o p : offset_plain o -> mat_postfix o = Ok p -> ~ In ","%char p.
Proof.
  destruct o; cbn [offset_plain mat_postfix]; try discriminate; intros H E.
  - assert (p = lit (to_string d)) as -> by congruence. apply stiff_no_comma, to_string_stiff, H.
  - assert (p = s) as -> by congruence. apply H.
Qed.
Lemma postfix_same o o' p p' : offset_plain o -> offset_plain o' -> mat_postfix o = Ok p -> mat_postfix o' = Ok p' ->
  (same_up_to_case p p' <-> same_offset o o').
Proof.
  destruct o, o'; cbn [offset_plain mat_postfix same_offset]; try discriminate; intros H H' E1 E2;
    match type of E1 with Ok ?x = _ => assert (p = x) as -> by congruence end; match type of E2 with Ok ?x = _ => assert (p' = x) as -> by congruence end; clear E1 E2.
  - split; [|intros ->; apply same_refl]. intros S. apply stiff_same in S; [|apply to_string_stiff, H'].
    apply to_string_inj; try assumption. unfold lit in S.
    rewrite <- (string_of_list_ascii_of_string (to_string d)), S. apply string_of_list_ascii_of_string.
  - split; [|contradiction]. intros S. apply same_sym in S. apply stiff_same in S; [|apply to_string_stiff, H]. destruct H' as (_ & _ & N). rewrite S in N.
    unfold lit in N. rewrite string_of_list_ascii_of_string in N. destruct (string_round_trip d H) as [_ R]. congruence.
  - split; [|contradiction]. intros S. apply stiff_same in S; [|apply to_string_stiff, H']. destruct H as (_ & _ & N). rewrite S in N.
    unfold lit in N. rewrite string_of_list_ascii_of_string in N. destruct (string_round_trip d H') as [_ R]. congruence.
  - reflexivity.
Qed.
Lemma start_cases o p : offset_plain o -> start_postfix o = Ok p ->
  (o = ONothing /\ p = []) \/ (exists q, mat_postfix o = Ok q /\ p = ","%char :: q /\ ~ In ","%char q /\ o <> ONothing).
Proof.
  intros H E. unfold start_postfix in E. destruct o as [| | | | |s]; cbn [off_empty mat_postfix obind] in *; try discriminate.
  - left. split; [reflexivity|congruence].
  - right. exists (lit (to_string d)). repeat split; try discriminate; [change (lit ",") with [","%char] in E; cbn [app] in E; congruence|apply (postfix_plain (ODate d)); [assumption|reflexivity]].
  - right. exists s. destruct s as [|c s]; [destruct H as [H _]; now contradiction H|]. cbn [obind] in E. repeat split; try discriminate; [change (lit ",") with [","%char] in E; cbn [app] in E; congruence|apply H].
Qed.
(** A piece without commas followed by a start. *)
Lemma piece_start a b o o' p p' : ~ In ","%char a -> ~ In ","%char b -> offset_plain o -> offset_plain o' ->
  start_postfix o = Ok p -> start_postfix o' = Ok p' ->
  (same_up_to_case (a ++ p) (b ++ p') <-> same_up_to_case a b /\ same_offset o o').
Proof.
  intros Ha Hb Ho Ho' E E'.
  destruct (start_cases o p Ho E) as [[-> ->]|(q & Eq & -> & Nq & Ne)], (start_cases o' p' Ho' E') as [[-> ->]|(q' & Eq' & -> & Nq' & Ne')].
  - rewrite !app_nil_r. cbn [same_offset]. tauto.
  - rewrite app_nil_r. split; [intros S; apply no_comma_split in S; [contradiction|assumption]|]. intros [_ S]. destruct o'; cbn [same_offset] in S; try contradiction.
  - rewrite app_nil_r. split; [intros S; apply same_sym in S; apply no_comma_split in S; [contradiction|assumption]|]. intros [_ S]. destruct o; cbn [same_offset] in S; try contradiction.
  - rewrite <- (postfix_same o o' q q' Ho Ho' Eq Eq'). split.
    + intros S. apply split_comma in S; assumption.
    + intros [S1 S2]. apply same_app; [assumption|constructor; [left; reflexivity|assumption]].
Qed.
Lemma drop_same c d (x y : str) : same_up_to_case (c :: x) (d :: y) -> same_up_to_case x y.
Proof. intros H. inversion H. assumption. Qed.
Lemma cons_comma (x y : str) : same_up_to_case (","%char :: x) (","%char :: y) <-> same_up_to_case x y.
Proof. split; [intros H; inversion H; assumption|intros H; constructor; [left; reflexivity|assumption]]. Qed.
Lemma ir_names c t s c' t' s' p p' : ~ In ","%char t -> ~ In ","%char t' -> offset_plain s -> offset_plain s' -> start_postfix s = Ok p -> start_postfix s' = Ok p' ->
  (same_up_to_case (lit "IR:" ++ ccy_string c ++ lit "," ++ t ++ p) (lit "IR:" ++ ccy_string c' ++ lit "," ++ t' ++ p') <->
   c = c' /\ same_up_to_case t t' /\ same_offset s s').
Proof.
  intros Ht Ht' Hs Hs' E E'. change (lit ",") with [","%char]. cbn [app]. split.
  - intros H. assert (H' : same_up_to_case (ccy_string c ++ ","%char :: t ++ p) (ccy_string c' ++ ","%char :: t' ++ p'))
      by (do 3 apply drop_same in H; exact H).
    apply split_comma in H'; try apply ccy_no_comma. destruct H' as [H1 H2]. apply ccy_same in H1.
    apply (piece_start t t' s s' p p') in H2; try assumption. tauto.
  - intros (-> & H). apply (piece_start t t' s s' p p') in H; try assumption.
    apply same_app; [apply same_refl|]. apply same_app; [apply same_refl|]. apply cons_comma, H.
Qed.
Lemma df_names c m s c' m' s' p p' q q' : offset_plain m -> offset_plain m' -> offset_plain s -> offset_plain s' ->
  start_postfix s = Ok p -> start_postfix s' = Ok p' -> mat_postfix m = Ok q -> mat_postfix m' = Ok q' ->
  (same_up_to_case (lit "IR[DF]:" ++ ccy_string c ++ p ++ lit "," ++ q) (lit "IR[DF]:" ++ ccy_string c' ++ p' ++ lit "," ++ q') <->
   c = c' /\ same_offset m m' /\ same_offset s s').
Proof.
  intros Hm Hm' Hs Hs' E E' F F'. change (lit ",") with [","%char]. cbn [app].
  assert (G : same_up_to_case (lit "IR[DF]:" ++ ccy_string c ++ p ++ ","%char :: q) (lit "IR[DF]:" ++ ccy_string c' ++ p' ++ ","%char :: q') <->
              same_up_to_case (ccy_string c ++ p ++ ","%char :: q) (ccy_string c' ++ p' ++ ","%char :: q')).
  { split; [|intros H; apply same_app; [apply same_refl|assumption]]. intros H. do 7 apply drop_same in H. exact H. }
  rewrite G. clear G.
  pose proof (postfix_plain m q Hm F) as Nq. pose proof (postfix_plain m' q' Hm' F') as Nq'.
  destruct (start_cases s p Hs E) as [[-> ->]|(u & Eu & -> & Nu & Ne)], (start_cases s' p' Hs' E') as [[-> ->]|(u' & Eu' & -> & Nu' & Ne')]; cbn [app].
  - cbn [same_offset]. rewrite <- (postfix_same m m' q q' Hm Hm' F F'). split.
    + intros H. apply split_comma in H; try apply ccy_no_comma. destruct H as [H1 H2]. apply ccy_same in H1. tauto.
    + intros (-> & H & _). apply same_app; [apply same_refl|apply cons_comma, H].
  - split; [|intros (_ & _ & H); destruct s'; cbn [same_offset] in H; contradiction]. intros H. apply split_comma in H; try apply ccy_no_comma. destruct H as [_ H].
    apply no_comma_split in H; [contradiction|assumption].
  - split; [|intros (_ & _ & H); destruct s; cbn [same_offset] in H; contradiction]. intros H. apply split_comma in H; try apply ccy_no_comma. destruct H as [_ H].
    apply same_sym, no_comma_split in H; [contradiction|assumption].
  - rewrite <- (postfix_same m m' q q' Hm Hm' F F'), <- (postfix_same s s' u u' Hs Hs' Eu Eu'). split.
    + intros H. apply split_comma in H; try apply ccy_no_comma. destruct H as [H1 H]. apply ccy_same in H1. apply split_comma in H; try assumption. tauto.
    + intros (-> & H & H'). apply same_app; [apply same_refl|]. apply cons_comma. apply same_app; [assumption|]. apply cons_comma, H.
Qed.
Lemma third_differs x y : ~ same_up_to_case (lit "IR:" ++ x) (lit "IR[DF]:" ++ y).
Proof.
  intros H. do 2 apply drop_same in H. inversion H as [|? ? ? ? H3 _].
  apply ceq_same in H3. vm_compute in H3. discriminate.
Qed.
Lemma names_tell i j a b : clear i -> clear j -> ir_name i = Ok a -> ir_name j = Ok b -> (same_up_to_case a b <-> same_index i j).
Proof.
  intros Ci Cj Ea Eb. destruct i as [c r s|c t s|c m s k], j as [c' r' s'|c' t' s'|c' m' s' k']; cbn [clear ir_name same_index] in *;
    destruct (start_postfix s) as [p| | |] eqn:E; try discriminate; destruct (start_postfix s') as [p'| | |] eqn:E'; try discriminate; cbn [obind] in Ea, Eb.
  - injection Ea as <-. injection Eb as <-. rewrite (ir_names c (rate_string r) s c' (rate_string r') s' p p'); try assumption; try apply rate_no_comma.
    split; [intros (H1 & H2 & H3); apply rate_same in H2; tauto|intros (-> & -> & H); repeat split; [apply same_refl|exact H]].
  - injection Ea as <-. injection Eb as <-. rewrite (ir_names c (rate_string r) s c' t' s' p p'); try assumption; try apply rate_no_comma; try tauto.
    split; [|contradiction]. intros (_ & H & _). destruct Cj as (_ & N & _). apply (N r), same_sym, H.
  - destruct (mat_postfix m') as [q'| | |]; try discriminate. cbn [obind] in Eb. injection Ea as <-. injection Eb as <-. split; [|contradiction]. intros H. now apply third_differs in H.
  - injection Ea as <-. injection Eb as <-. rewrite (ir_names c t s c' (rate_string r') s' p p'); try assumption; try apply rate_no_comma; try tauto.
    split; [|contradiction]. intros (_ & H & _). destruct Ci as (_ & N & _). apply (N r'), H.
  - injection Ea as <-. injection Eb as <-. apply (ir_names c t s c' t' s' p p'); try assumption; tauto.
  - destruct (mat_postfix m') as [q'| | |]; try discriminate. cbn [obind] in Eb. injection Ea as <-. injection Eb as <-. split; [|contradiction]. intros H. now apply third_differs in H.
  - destruct (mat_postfix m) as [q| | |]; try discriminate. cbn [obind] in Ea. injection Ea as <-. injection Eb as <-. split; [|contradiction]. intros H. now apply same_sym, third_differs in H.
  - destruct (mat_postfix m) as [q| | |]; try discriminate. cbn [obind] in Ea. injection Ea as <-. injection Eb as <-. split; [|contradiction]. intros H. now apply same_sym, third_differs in H.
  - destruct (mat_postfix m) as [q| | |] eqn:F; try discriminate. destruct (mat_postfix m') as [q'| | |] eqn:F'; try discriminate. cbn [obind] in Ea, Eb. injection Ea as <-. injection Eb as <-.
    apply df_names; try assumption; tauto.
Qed.
Lemma named i : (exists a, ir_name i = Ok a) <-> has_name i.
Proof.
  destruct i as [c r s|c t s|c m s k]; cbn [ir_name has_name]; unfold start_postfix;
    (destruct s as [| | | | |[|x s]]; cbn [off_empty mat_postfix obind nameable]; try (split; [intros [a H]; discriminate|tauto]));
    try (split; [intros _; exact Logic.I|intros _; eexists; reflexivity]);
    try (destruct m; cbn [mat_postfix obind nameable]; split; intros H;
         first [destruct H as [a H]; discriminate | eexists; reflexivity | repeat split; discriminate | exfalso; tauto]).
Qed.
Lemma unparsed i a : ir_name i = Ok a -> parse_index library_parsers a = Throw.
Proof.
  destruct i as [c r s|c t s|c m s k]; cbn [ir_name]; destruct (start_postfix s) as [p| | |]; try discriminate; cbn [obind];
    try (destruct (mat_postfix m) as [q| | |]; try discriminate; cbn [obind]); intros [= <-].
  all: unfold parse_index; cbn [lit list_ascii_of_string app];
       match goal with |- context [find_first_of ?x ?y ?z] => change (find_first_of x y z) with 2 end; change (2 =? npos) with false; cbv iota.
  1,2: match goal with |- context [substr (?a :: ?b :: ?r) 0 2] => assert (H : substr (a :: b :: r) 0 2 = Ok [a; b]) by exact (substr_mid [] [a; b] r) end.
  3: match goal with |- context [substr (?a :: ?b :: ?r) 0 2] => assert (H : substr (a :: b :: r) 0 2 = Ok [a; b]) by exact (substr_mid [] [a; b] r) end.
  all: rewrite H; reflexivity.
Qed.
Lemma same_size a b : same_up_to_case a b -> List.length a = List.length b.
Proof. induction 1; cbn [List.length]; congruence. Qed.

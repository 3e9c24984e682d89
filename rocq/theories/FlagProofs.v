From Coq Require Import String Ascii ZArith List Bool Lia DecimalString DecimalZ.
From Verif Require Import Base DateModel StringModel StringSpec StringProofs DictModel ClockModel FlagModel FlagSpec.
Import ListNotations.
Open Scope Z_scope.

Definition yes (c : ascii) : bool := ceq c "T" || ceq c "Y" || ceq c "1".
Definition no (c : ascii) : bool := ceq c "F" || ceq c "N" || ceq c "0".
Lemma char_cases c : char_to_bool c = if yes c then Ok true else if no c then Ok false else Throw.
Proof. destruct c as [[] [] [] [] [] [] [] []]; vm_compute; reflexivity. Qed.
Lemma yes_no c : yes c = true -> no c = true -> False.
Proof. destruct c as [[] [] [] [] [] [] [] []]; vm_compute; congruence. Qed.
Definition capital (w : str) : Prop := Forall (fun c => code c < 128 /\ toupper c = c) w.
Lemma spells_ok word : capital word -> forall s, ascii_only s -> length s = length word ->
  exists b, spells word s = Ok b /\ (b = true <-> same_up_to_case s word).
Proof.
  induction 1 as [|w word [Hw Uw] _ IH]; intros [|c s] A L; try discriminate.
  - exists true. split; [reflexivity|]. split; [constructor|reflexivity].
  - inversion A as [|? ? Hc A']; subst. cbn [spells]. replace (128 <=? code c) with false by (symmetry; apply Z.leb_gt; exact Hc).
    pose proof (toupper_same c w Hc Hw) as E. rewrite Uw in E. destruct (Ascii.eqb_spec (toupper c) w) as [Q|Q].
    + destruct (IH s A' ltac:(cbn in L; lia)) as (b & -> & Hb). exists b. split; [reflexivity|]. rewrite Hb. split; intro H.
      * constructor; [apply E, Q|exact H].
      * inversion H; assumption.
    + exists false. split; [reflexivity|]. split; [discriminate|]. intro H. inversion H as [|? ? ? ? Hs _]; subst. apply E in Hs. congruence.
Qed.
Lemma test_word_ok word s : capital word -> ascii_only s -> exists b, test_word word s = Ok b /\ (b = true <-> same_up_to_case s word).
Proof.
  intros C A. unfold test_word. destruct (Nat.eqb_spec (length s) (length word)) as [L|L]; [apply spells_ok; assumption|].
  exists false. split; [reflexivity|]. split; [discriminate|]. intro H. exfalso. apply L. clear - H. induction H; cbn; congruence.
Qed.
Lemma capital_true : capital (lit "TRUE"). Proof. repeat constructor. Qed.
Lemma capital_false : capital (lit "FALSE"). Proof. repeat constructor. Qed.
Lemma same_length a b : same_up_to_case a b -> length a = length b.
Proof. induction 1; cbn; congruence. Qed.
Lemma same_one a b : same_up_to_case [a] [b] <-> ceq a b = true.
Proof. rewrite ceq_same. split; intro H; [inversion H; assumption|constructor; [exact H|constructor]]. Qed.
Lemma yes_says c : yes c = true <-> says_true [c].
Proof.
  unfold yes, says_true. rewrite !orb_true_iff, <- !same_one. split.
  - intros [[H|H]|H]; [exists (lit "T")|exists (lit "Y")|exists (lit "1")]; (split; [cbn; tauto|exact H]).
  - intros (w & [<-|[<-|[<-|[<-|[]]]]] & H); [apply same_length in H; discriminate|left; left; exact H|left; right; exact H|right; exact H].
Qed.
Lemma no_says c : no c = true <-> says_false [c].
Proof.
  unfold no, says_false. rewrite !orb_true_iff, <- !same_one. split.
  - intros [[H|H]|H]; [exists (lit "F")|exists (lit "N")|exists (lit "0")]; (split; [cbn; tauto|exact H]).
  - intros (w & [<-|[<-|[<-|[<-|[]]]]] & H); [apply same_length in H; discriminate|left; left; exact H|left; right; exact H|right; exact H].
Qed.
Lemma long_true a b r : says_true (a :: b :: r) <-> same_up_to_case (a :: b :: r) (lit "TRUE").
Proof.
  split; [|intro H; exists (lit "TRUE"); split; [cbn; tauto|exact H]].
  intros (w & [<-|[<-|[<-|[<-|[]]]]] & H); [exact H|apply same_length in H; discriminate..].
Qed.
Lemma long_false a b r : says_false (a :: b :: r) <-> same_up_to_case (a :: b :: r) (lit "FALSE").
Proof.
  split; [|intro H; exists (lit "FALSE"); split; [cbn; tauto|exact H]].
  intros (w & [<-|[<-|[<-|[<-|[]]]]] & H); [exact H|apply same_length in H; discriminate..].
Qed.
Lemma says_ascii s b : says s b -> ascii_only s.
Proof.
  assert (forall w, ascii_only w -> same_up_to_case s w -> ascii_only s) as G.
  { intros w A H. unfold ascii_only in *. induction H as [|c d s w Hc _ IH]; [constructor|]. inversion A as [|? ? Hd A']; subst. constructor; [|apply IH, A'].
    unfold same_letter in Hc. pose proof (N2Z.is_nonneg (N_of_ascii c)). fold (code c) in *.
    destruct Hc as [E|[[E1 E2]|[E1 E2]]]; [lia|lia|]. rewrite Z.mod_small in E1; [lia|]. unfold code. split; [apply N2Z.is_nonneg|exact Hd]. }
  destruct b; intros (w & I & H); (apply (G w); [|exact H]); destruct I as [<-|[<-|[<-|[<-|[]]]]]; repeat constructor.
Qed.
Lemma to_bool_cases s : ascii_only s -> exists o, to_bool s = o /\ o <> UB /\ o <> OutOfFuel /\ forall b, o = Ok b <-> says s b.
Proof.
  intro A. eexists. split; [reflexivity|]. unfold to_bool. destruct s as [|c [|d r]].
  - split; [discriminate|]. split; [discriminate|]. intro b. split; [discriminate|]. intro H. destruct b, H as (w & [<-|[<-|[<-|[<-|[]]]]] & H); apply same_length in H; discriminate.
  - rewrite char_cases. pose proof (yes_says c) as Y. pose proof (no_says c) as X. pose proof (yes_no c) as YN. destruct (yes c) eqn:Ey; [|destruct (no c) eqn:En].
    + split; [discriminate|]. split; [discriminate|]. intros [|]; cbn [says]; split; intro H; try congruence; try (apply Y; reflexivity). apply X in H. destruct (YN eq_refl H).
    + split; [discriminate|]. split; [discriminate|]. intros [|]; cbn [says]; split; intro H; try congruence; try (apply X; reflexivity). apply Y in H. discriminate.
    + split; [discriminate|]. split; [discriminate|]. intros [|]; cbn [says]; split; intro H; try congruence; [apply Y in H|apply X in H]; discriminate.
  - destruct (test_word_ok (lit "TRUE") (c :: d :: r) capital_true A) as (t & Et & Ht). unfold test_true. rewrite Et. cbn [obind].
    rewrite <- long_true in Ht.
    destruct (test_word_ok (lit "FALSE") (c :: d :: r) capital_false A) as (f & Ef & Hf). unfold test_false. rewrite Ef. cbn [obind].
    assert (says_true (c :: d :: r) -> says_false (c :: d :: r) -> False) as YN.
    { rewrite long_true, long_false. intros H G. apply same_length in H, G. rewrite H in G. discriminate. }
    rewrite <- long_false in Hf.
    destruct t; [|destruct f]; (split; [discriminate|]; split; [discriminate|]); intros [|]; cbn [says]; split; intro H; try congruence;
      try (apply Ht; reflexivity); try (apply Hf; reflexivity); try (apply Ht in H; discriminate); try (apply Hf in H; discriminate).
    exfalso. apply YN; [apply Ht; reflexivity|exact H].
Qed.
Lemma mapm_ok {A B} (f : A -> outcome B) l m : Forall2 (fun x y => f x = Ok y) l m -> mapm f l = Ok m.
Proof. induction 1 as [|x y l m E _ IH]; [reflexivity|]. cbn [mapm]. rewrite E. cbn [obind]. rewrite IH. reflexivity. Qed.
Lemma says_no_comma s b : says s b -> s <> [] /\ ~ In ","%char s.
Proof.
  assert (forall w, ~ In ","%char w -> same_up_to_case s w -> ~ In ","%char s) as G.
  { intros w N H. induction H as [|c d s w Hc _ IH]; [intros []|]. intros [->|I].
    - apply N. left. unfold same_letter in Hc. change (code ",") with 44 in Hc. cbn in Hc. pose proof (N2Z.is_nonneg (N_of_ascii d)). fold (code d) in *.
      destruct Hc as [E|[[E1 E2]|[E1 E2]]]; [|lia|lia].
      apply (f_equal Z.to_N) in E. unfold code in E. rewrite N2Z.id in E. apply (f_equal ascii_of_N) in E. rewrite ascii_N_embedding in E. rewrite <- E. reflexivity.
    - apply IH; [|exact I]. intro Z. apply N. right. exact Z. }
  intro H. split.
  - intros ->. destruct b, H as (w & [<-|[<-|[<-|[<-|[]]]]] & H); apply same_length in H; discriminate.
  - destruct b, H as (w & I & H); (apply (G w); [|exact H]); clear - I; intro J; destruct I as [<-|[<-|[<-|[<-|[]]]]]; cbn in J; intuition discriminate.
Qed.
Lemma cut_comma s : ~ In ","%char s -> snd (cut "," s) = None.
Proof. intro H. rewrite cut_none by exact H. reflexivity. Qed.
Lemma join_comma a b l : snd (cut "," (join "," (a :: b :: l))) <> None.
Proof.
  change (join "," (a :: b :: l)) with (a ++ ","%char :: join "," (b :: l)). generalize (join "," (b :: l)). intro r.
  induction a as [|c a IH]; cbn [app cut]; [discriminate|]. destruct (Ascii.eqb c ","); [discriminate|].
  destruct (cut "," (a ++ ","%char :: r)). exact IH.
Qed.
(** a word of flags is one flag *)
Lemma vector_one s b : says s b -> to_bool_vector s = Ok [b].
Proof.
  intro H. destruct (says_no_comma s b H) as [Ne Nc]. unfold to_bool_vector. rewrite cut_comma by exact Nc.
  pose proof (says_ascii s b H) as A.
  destruct (test_word_ok (lit "TRUE") s capital_true A) as (t & Et & Ht). unfold test_true. rewrite Et. cbn [obind].
  destruct (test_word_ok (lit "FALSE") s capital_false A) as (f & Ef & Hf). unfold test_false. rewrite Ef. cbn [obind].
  destruct (to_bool_cases s A) as (o & Eo & _ & _ & Ho). pose proof (proj2 (Ho b) H) as Q.
  destruct s as [|c [|d r]]; [congruence| |].
  - assert (t = false) as -> by (destruct t; [|reflexivity]; pose proof (same_length _ _ (proj1 Ht eq_refl)); discriminate).
    assert (f = false) as -> by (destruct f; [|reflexivity]; pose proof (same_length _ _ (proj1 Hf eq_refl)); discriminate).
    cbn [to_bool] in Eo. cbn [mapm]. rewrite Eo, Q. reflexivity.
  - unfold to_bool, test_true, test_false in Eo. rewrite Et, Ef in Eo. cbn [obind] in Eo. rewrite Q in Eo. clear - Eo. destruct t; [|destruct f]; congruence.
Qed.
Lemma letters_not_true (l : list bool) word c : ~ In c ["T"; "F"]%char -> In c word -> capital word ->
  test_word word (map (fun b : bool => if b then "T"%char else "F"%char) l) = Ok false.
Proof.
  intros Hc Hi C. set (s := map _ l). assert (ascii_only s) as A by (subst s; clear; induction l as [|[] r IH]; cbn; constructor; auto; reflexivity).
  destruct (test_word_ok word s C A) as (b & -> & Hb). destruct b; [|reflexivity]. exfalso. pose proof (proj1 Hb eq_refl) as H. clear Hb.
  assert (Forall (fun c => c = "T"%char \/ c = "F"%char) s) as F by (subst s; clear; induction l as [|[] r IH]; cbn; constructor; auto).
  clearbody s. unfold same_up_to_case in H. induction H as [|x y u v Hx _ IH]; [destruct Hi|]. inversion F as [|? ? Fx F']; inversion C as [|? ? [Cy Uy] C']; inversion A as [|? ? Ax A']; subst.
  destruct Hi as [->|Hi]; [|apply IH; assumption]. apply (toupper_same x c Ax Cy) in Hx. rewrite Uy in Hx.
  apply Hc. destruct Fx as [->| ->]; rewrite <- Hx; cbn; auto.
Qed.

(** whole numbers *)
Lemma dec_acc u : forall p, dec_value (Zpos p) (NilEmpty.string_of_uint u) = Zpos (Pos.of_uint_acc u p).
Proof. induction u as [|u IH|u IH|u IH|u IH|u IH|u IH|u IH|u IH|u IH|u IH]; intro p; cbn [NilEmpty.string_of_uint Pos.of_uint_acc]; [reflexivity|..];
  cbn [dec_value]; rewrite <- IH; f_equal; unfold N_of_ascii; cbn -[Z.mul Pos.mul Z.add Pos.add]; lia. Qed.
Lemma dec_zero u : dec_value 0 (NilEmpty.string_of_uint u) = Z.of_uint u.
Proof.
  unfold Z.of_uint. induction u as [|u IH|u IH|u IH|u IH|u IH|u IH|u IH|u IH|u IH|u IH]; cbn [NilEmpty.string_of_uint Pos.of_uint]; [reflexivity|exact IH|..];
  cbn [dec_value]; cbn -[dec_value Pos.of_uint_acc]; apply dec_acc.
Qed.
Lemma span_uint u : span_digits (NilEmpty.string_of_uint u) = (NilEmpty.string_of_uint u, EmptyString).
Proof. induction u as [|u IH|u IH|u IH|u IH|u IH|u IH|u IH|u IH|u IH|u IH]; cbn [NilEmpty.string_of_uint]; [reflexivity|..]; cbn; cbn in IH; rewrite IH; reflexivity. Qed.
Lemma nil_zero u : NilZero.string_of_uint u = NilEmpty.string_of_uint (match u with Decimal.Nil => Decimal.D0 Decimal.Nil | _ => u end).
Proof. destruct u; reflexivity. Qed.
Lemma uint_first u : u <> Decimal.Nil -> exists c r, NilEmpty.string_of_uint u = String c r /\ In c ["0"; "1"; "2"; "3"; "4"; "5"; "6"; "7"; "8"; "9"]%char.
Proof. destruct u; [congruence|..]; intros _; cbn [NilEmpty.string_of_uint]; eexists _, _; (split; [reflexivity|]); cbn; tauto. Qed.
Lemma stoi_show z : int_range z = true -> stoi_text (string_of_list_ascii (show_int z)) = Ok z.
Proof.
  intro H. unfold show_int. rewrite string_of_list_ascii_of_string. pose proof (of_to z) as E. unfold stoi_text.
  destruct (Z.to_int z) as [u|u]; cbn [NilZero.string_of_int Z.of_int] in *; rewrite nil_zero; set (v := match u with Decimal.Nil => _ | _ => _ end).
  - assert (Z.of_uint v = z) as Ev by (subst v; destruct u; exact E).
    assert (v <> Decimal.Nil) as Nv by (subst v; destruct u; discriminate).
    destruct (uint_first v Nv) as (c & r & Er & Ic).
    assert (skip_blanks (NilEmpty.string_of_uint v) = NilEmpty.string_of_uint v) as ->.
    { rewrite Er. cbn in Ic. repeat (destruct Ic as [<-|Ic]; [reflexivity|]). destruct Ic. }
    assert ((match NilEmpty.string_of_uint v with String "-" r => (true, r) | String "+" r => (false, r) | _ => (false, NilEmpty.string_of_uint v) end) = (false, NilEmpty.string_of_uint v)) as ->.
    { rewrite Er. cbn in Ic. repeat (destruct Ic as [<-|Ic]; [reflexivity|]). destruct Ic. }
    rewrite span_uint. rewrite <- dec_zero in Ev. destruct (NilEmpty.string_of_uint v); [discriminate|]. rewrite Ev, H. reflexivity.
  - assert (- Z.of_uint v = z) as Ev by (subst v; destruct u; exact E).
    assert (v <> Decimal.Nil) as Nv by (subst v; destruct u; discriminate).
    destruct (uint_first v Nv) as (c & r & Er & Ic). change (skip_blanks (String "-" (NilEmpty.string_of_uint v))) with (String "-" (NilEmpty.string_of_uint v)). cbv iota beta.
    rewrite span_uint. rewrite <- dec_zero in Ev. destruct (NilEmpty.string_of_uint v); [discriminate|]. rewrite Ev, H. reflexivity.
Qed.

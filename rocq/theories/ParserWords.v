(** Facts about tokens. *)
From Coq Require Import String Ascii ZArith List Bool Lia ZifyBool Arith.
From Verif Require Import Base StringModel StringSpec StringProofs ScriptModel ParserModel ParserSpec.
Import ListNotations.
Local Open Scope nat_scope.

Lemma is_keyword t k : is t k = true <-> keyword t k.
Proof. apply ci_eqb_iff. Qed.
Lemma is_other t a b : keyword t a -> is t b = is (lit a) b.
Proof.
  intros H. apply is_keyword in H. unfold is in *. destruct (ci_eqb (lit a) (lit b)) eqn:E.
  - exact (ci_eqb_trans _ _ _ H E).
  - destruct (ci_eqb t (lit b)) eqn:F; [|reflexivity]. rewrite ci_eq_sym in H. rewrite (ci_eqb_trans _ _ _ H F) in E. discriminate.
Qed.
Lemma is_first t s : is t s = true -> sort_val (first t) = sort_val (first (lit s)).
Proof.
  unfold is. intros E. destruct t as [|c t], (lit s) as [|d r]; cbn [first]; try reflexivity; try discriminate.
  unfold ci_eqb in E. cbn [ci_compare] in E. unfold clt in E.
  destruct (Z.ltb_spec (sort_val c) (sort_val d)); [discriminate|]. destruct (Z.ltb_spec (sort_val d) (sort_val c)); [discriminate|]. lia.
Qed.
(** by the first character *)
Definition marks : str := lit "()+-*/^,;:<>=!".
Definition wordy (c : ascii) : bool := existsb (Ascii.eqb c) letters || existsb (Ascii.eqb c) digits.
Lemma in_existsb c l : In c l <-> existsb (Ascii.eqb c) l = true.
Proof.
  rewrite existsb_exists. split.
  - intros H. exists c. split; [exact H|apply Ascii.eqb_refl].
  - intros (x & H & E). apply Ascii.eqb_eq in E. subst. exact H.
Qed.
Lemma all_ascii (f : ascii -> bool) : forallb (fun n => f (ascii_of_nat n)) (seq 0 256) = true -> forall c, f c = true.
Proof.
  intros H c. rewrite forallb_forall in H. specialize (H (nat_of_ascii c)). cbn beta in H. rewrite ascii_nat_embedding in H. apply H.
  apply in_seq. pose proof (nat_ascii_bounded c). lia.
Qed.
Definition as_word (c : ascii) : bool :=
  negb (wordy c) ||
  (forallb (fun l => match op_at l c with None => true | _ => false end) [L1; L2; L3; L4] &&
   match sign_of c with None => true | _ => false end && forallb (fun m => negb (sort_val c =? sort_val m)%Z && negb (Ascii.eqb c m)) marks).
Lemma word_facts c : as_word c = true.
Proof. apply all_ascii. vm_compute. reflexivity. Qed.
Lemma word_quiet c l : wordy c = true -> op_at l c = None.
Proof.
  intros H. pose proof (word_facts c) as W. unfold as_word in W. rewrite H in W. cbn [negb orb] in W.
  apply andb_prop in W as [W _]. apply andb_prop in W as [W _]. rewrite forallb_forall in W.
  specialize (W l). destruct (op_at l c); [|reflexivity]. assert (false = true); [|discriminate]. apply W. destruct l; cbn; auto.
Qed.
Lemma word_sign c : wordy c = true -> sign_of c = None.
Proof.
  intros H. pose proof (word_facts c) as W. unfold as_word in W. rewrite H in W. cbn [negb orb] in W.
  apply andb_prop in W as [W _]. apply andb_prop in W as [_ W]. destruct (sign_of c); [discriminate|reflexivity].
Qed.
Lemma word_mark t m : wordy (first t) = true -> In m marks -> is t (String m EmptyString) = false /\ starts t m = false.
Proof.
  intros H Hm. pose proof (word_facts (first t)) as W. unfold as_word in W. rewrite H in W. cbn [negb orb] in W.
  apply andb_prop in W as [_ W]. rewrite forallb_forall in W. specialize (W m Hm). apply andb_prop in W as [W1 W2]. split.
  - destruct (is t (String m "")) eqn:E; [|reflexivity]. apply is_first in E. cbn in E. rewrite E, Z.eqb_refl in W1. discriminate.
  - unfold starts. destruct (Ascii.eqb (first t) m); [discriminate|reflexivity].
Qed.
Lemma letter_wordy c : In c letters -> wordy c = true.
Proof. intros H. apply in_existsb in H. unfold wordy. rewrite H. reflexivity. Qed.
Lemma digit_wordy c : In c digits -> wordy c = true.
Proof. intros H. apply in_existsb in H. unfold wordy. rewrite H, orb_true_r. reflexivity. Qed.
Definition letter_check (c : ascii) : bool :=
  negb (existsb (Ascii.eqb c) letters) || (negb (is_digit c) && ((65 <=? code c) && (code c <=? 122))%Z).
Lemma letter_facts c : In c letters -> is_digit c = false /\ (65 <= code c <= 122)%Z.
Proof.
  intros H. apply in_existsb in H. assert (W : letter_check c = true) by (apply all_ascii; vm_compute; reflexivity).
  unfold letter_check in W. rewrite H in W. cbn [negb orb] in W. apply andb_prop in W as [W1 W2]. apply andb_prop in W2 as [W2 W3].
  split; [destruct (is_digit c); [discriminate|reflexivity]|]. lia.
Qed.
Definition case_check (c : ascii) : bool := negb ((65 <=? sort_val c) && (sort_val c <=? 90))%Z || existsb (Ascii.eqb c) letters.
Lemma case_facts c : (65 <= sort_val c <= 90)%Z -> In c letters.
Proof.
  intros H. assert (W : case_check c = true) by (apply all_ascii; vm_compute; reflexivity). unfold case_check in W.
  replace ((65 <=? sort_val c)%Z && (sort_val c <=? 90)%Z) with true in W by lia. apply in_existsb. exact W.
Qed.
Lemma keyword_letter t k : In k keywords -> keyword t k -> In (first t) letters.
Proof.
  intros Hk H. apply is_keyword, is_first in H. apply case_facts. rewrite H.
  assert (W : forallb (fun k => (65 <=? sort_val (first (lit k))) && (sort_val (first (lit k)) <=? 90))%Z keywords = true) by (vm_compute; reflexivity).
  rewrite forallb_forall in W. specialize (W k Hk). lia.
Qed.
Lemma name_letter t : name_token t -> In (first t) letters.
Proof. intros [(c & r & -> & H) _]. exact H. Qed.
Lemma name_not t k : name_token t -> In k keywords -> is t k = false.
Proof. intros [_ H] Hk. destruct (is t k) eqn:E; [|reflexivity]. apply is_keyword in E. destruct (H k Hk E). Qed.
Lemma name_func t : name_token t -> func_of t = None.
Proof. intros H. unfold func_of. rewrite !(name_not t) by (try exact H; cbn; tauto). reflexivity. Qed.
Lemma name_valid t : name_token t -> valid_name t = true.
Proof.
  intros H. unfold valid_name. destruct (letter_facts _ (name_letter t H)) as [_ L].
  rewrite (proj2 (Z.leb_le _ _) (proj1 L)), (proj2 (Z.leb_le _ _) (proj2 L)). cbn [andb]. unfold is_reserved. cbn [reserved existsb].
  rewrite !(name_not t) by (try exact H; cbn; tauto). reflexivity.
Qed.
Lemma number_digit t : number_token t -> is_digit (first t) = true.
Proof.
  intros (c & r & -> & H). cbn [first]. apply in_existsb in H.
  assert (W : forall c, (negb (existsb (Ascii.eqb c) digits) || is_digit c) = true) by (apply all_ascii; vm_compute; reflexivity).
  specialize (W c). rewrite H in W. exact W.
Qed.
Lemma number_wordy t : number_token t -> wordy (first t) = true.
Proof. intros (c & r & -> & H). apply digit_wordy, H. Qed.

(** * brackets *)
(** depth after reading the tokens, [None] if a bracket is closed that was not opened *)
Fixpoint depth (d : nat) (l : list str) : option nat :=
  match l with
  | [] => Some d
  | t :: r => if starts t "(" then depth (S d) r else if starts t ")" then match d with O => None | S d' => depth d' r end else depth d r
  end.
Lemma depth_app l1 : forall d l2, depth d (l1 ++ l2) = match depth d l1 with Some d' => depth d' l2 | None => None end.
Proof.
  induction l1 as [|t l1 IH]; intros d l2; [reflexivity|]. cbn [app depth]. destruct (starts t "("); [apply IH|].
  destruct (starts t ")"); [|apply IH]. destruct d; [reflexivity|apply IH].
Qed.
Lemma depth_shift l : forall d d' k, depth d l = Some d' -> depth (d + k) l = Some (d' + k).
Proof.
  induction l as [|t l IH]; intros d d' k; cbn [depth]; [congruence|]. destruct (starts t "("); [intros H; apply (IH (S d) d' k H)|].
  destruct (starts t ")"); [|apply IH]. destruct d; [discriminate|]. apply IH.
Qed.
Definition balanced (l : list str) : Prop := depth 0 l = Some 0.
Lemma balanced_any l d : balanced l -> depth d l = Some d.
Proof. intros H. apply (depth_shift l 0 0 d H). Qed.
Lemma balanced_app l1 l2 : balanced l1 -> balanced l2 -> balanced (l1 ++ l2).
Proof. intros H1 H2. unfold balanced. rewrite depth_app, H1. exact H2. Qed.
Lemma balanced_one t : wordy (first t) = true -> balanced [t].
Proof. intros H. unfold balanced. cbn [depth]. rewrite (proj2 (word_mark t "(" H ltac:(cbn; tauto))), (proj2 (word_mark t ")" H ltac:(cbn; tauto))). reflexivity. Qed.
Lemma balanced_cons t l : balanced [t] -> balanced l -> balanced (t :: l).
Proof. intros H1 H2. apply (balanced_app [t] l H1 H2). Qed.
Lemma balanced_brackets l : balanced l -> balanced (lit "(" :: l ++ [lit ")"]).
Proof. intros H. unfold balanced. cbn [depth]. change (starts (lit "(") "(") with true. cbn beta iota. rewrite depth_app, (balanced_any l 1 H). reflexivity. Qed.
Lemma at_end_false (cur : cursor) stop : stop < length cur -> at_end cur stop = false.
Proof. intros H. apply Nat.eqb_neq. lia. Qed.
Lemma find_match_found l : forall d R stop, depth d l = Some 0 -> stop <= length R ->
  forall t, starts t ")" = true -> find_match (S d) (l ++ t :: R) stop = Ok (t :: R).
Proof.
  induction l as [|u l IH]; intros d R stop Hd Hs t Ht; cbn [app find_match]; rewrite at_end_false by (cbn [length]; rewrite ?app_length; cbn [length]; lia).
  - cbn [depth] in Hd. assert (d = 0) by congruence. subst d. rewrite Ht. assert (E : starts t "(" = false).
    { unfold starts in *. apply Ascii.eqb_eq in Ht. rewrite Ht. reflexivity. }
    rewrite E. reflexivity.
  - cbn [depth] in Hd. destruct (starts u "(") eqn:E.
    + assert (F : starts u ")" = false) by (unfold starts in *; apply Ascii.eqb_eq in E; rewrite E; reflexivity). rewrite F.
      replace (S d + 1 - 0) with (S (S d)) by lia. apply (IH (S d)); assumption.
    + destruct (starts u ")"); [destruct d as [|d]; [discriminate|]; replace (S (S d) + 0 - 1) with (S d) by lia|replace (S d + 0 - 0) with (S d) by lia]; apply IH; assumption.
Qed.

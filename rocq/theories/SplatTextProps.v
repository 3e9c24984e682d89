(** C69: the lines of a file and the cells in it, for files not written by the library. *)
From Coq Require Import String Ascii ZArith List Bool Lia.
From Verif Require Import Base StringModel StringSpec StringProofs DictModel SplatModel SplatFileModel SplatFileSpec SplatFileProofs.
Import ListNotations.
Open Scope Z_scope.

(** Lines that fit the buffer. *)
Definition short_lines (ls : list str) : Prop := Forall (fun l => ~ In newline l /\ ~ In nul l /\ zlen l <= 2047) ls.
(** A file of short lines is read as these lines, whether or not the last one is ended. *)
Theorem C69_lines : forall ls, short_lines ls ->
  read_lines (flat_map (fun l => l ++ [newline]) ls) = ls /\
  (forall l, l <> [] -> short_lines [l] -> read_lines (flat_map (fun l => l ++ [newline]) ls ++ l) = ls ++ [l]).
Proof.
  assert (L : forall ls rest, short_lines ls -> read_lines (flat_map (fun l => l ++ [newline]) ls ++ rest) = ls ++ read_lines rest).
  { induction ls as [|l ls IH]; intros rest H; [reflexivity|]. inversion H as [|? ? (H1 & H2 & H3) Hs]; subst. cbn [flat_map]. rewrite <- !app_assoc. cbn [app].
    unfold read_lines at 1. rewrite read_from_line; [|exact H1|unfold line_room, zlen in *; lia]. cbn [rev app]. rewrite (c_str_id l H2). f_equal. apply IH, Hs. }
  assert (E : forall l taken room, ~ In newline l -> (List.length l <= room)%nat -> rev taken ++ l <> [] -> read_from taken room l = [c_str (rev taken ++ l)]).
  { induction l as [|c l IH]; intros taken room Hn Hl He; cbn [read_from].
    - rewrite app_nil_r in *. destruct taken; [now contradiction He|reflexivity].
    - destruct (Ascii.eqb_spec c newline) as [->|_]; [exfalso; apply Hn; now left|]. destruct room as [|k]; cbn [List.length] in Hl; [lia|].
      rewrite IH; [|intros X; apply Hn; now right|lia|destruct (rev (c :: taken)) eqn:R; [cbn in R; destruct (rev taken); discriminate|discriminate]].
      cbn [rev]. now rewrite <- app_assoc. }
  intros ls H. split.
  - pose proof (L ls [] H) as Q. rewrite !app_nil_r in Q. exact Q.
  - intros l Hl Hs. rewrite (L ls l H). f_equal. inversion Hs as [|? ? (H1 & H2 & H3) _]; subst. unfold read_lines. rewrite E; [|exact H1|unfold line_room, zlen in *; lia|exact Hl].
    cbn [rev app]. now rewrite (c_str_id l H2).
Qed.
Print Assumptions C69_lines.
Example C69_lines_example : short_lines [lit "a,b"; []] /\ read_lines (lit "a,b" ++ newline :: newline :: lit "c") = [lit "a,b"; []; lit "c"].
Proof. split; [repeat constructor; cbn; try (intros X; repeat destruct X as [X|X]; try discriminate X; exact X); vm_compute; discriminate|vm_compute; reflexivity]. Qed.

(** Numerals: a sign or none, digits with a point among them or none, at least one digit, and a power of ten or none. *)
Definition digits (s : str) : Prop := Forall (fun c => 48 <= code c <= 57) s.
Definition signs (s : str) : Prop := s = [] \/ s = lit "+" \/ s = lit "-".
Definition power (s : str) : Prop :=
  s = [] \/ exists e sg ds, (e = "e"%char \/ e = "E"%char) /\ signs sg /\ digits ds /\ ds <> [] /\ s = e :: sg ++ ds.
Definition numeral (s : str) : Prop :=
  exists sg a b p, signs sg /\ digits a /\ digits b /\ a ++ b <> [] /\ power p /\ (s = sg ++ a ++ p /\ b = [] \/ s = sg ++ a ++ lit "." ++ b ++ p).

Lemma digit_iff c : digit c = true <-> 48 <= code c <= 57.
Proof. unfold digit, code, nat_of_ascii. rewrite andb_true_iff, !Nat.leb_le. lia. Qed.
Lemma skip_digits_spec s : exists ds, digits ds /\ s = ds ++ snd (skip_digits s) /\ fst (skip_digits s) = List.length ds /\
  match snd (skip_digits s) with c :: _ => digit c = false | [] => True end.
Proof.
  induction s as [|c s (ds & D & E & L & N)]; cbn [skip_digits]; [exists []; repeat split; constructor|].
  destruct (digit c) eqn:Q.
  - destruct (skip_digits s) as [n q]. cbn [fst snd] in *. exists (c :: ds). repeat split; [constructor; [now apply digit_iff|exact D]|cbn; now rewrite E|cbn; now rewrite L|exact N].
  - exists []. repeat split; [constructor|exact Q].
Qed.
Lemma skip_digits_app ds r : digits ds -> match r with c :: _ => digit c = false | [] => True end -> skip_digits (ds ++ r) = (List.length ds, r).
Proof.
  intros D N. induction D as [|c ds H _ IH]; cbn [app].
  - destruct r; cbn [skip_digits]; [reflexivity|]. now rewrite N.
  - cbn [skip_digits List.length]. rewrite (proj2 (digit_iff c) H), IH. reflexivity.
Qed.
Lemma skip_sign_spec s : exists sg, signs sg /\ s = sg ++ skip_sign s.
Proof.
  destruct s as [|c s]; [exists []; split; [left|]; reflexivity|]. cbn [skip_sign]. unfold sign.
  destruct (Ascii.eqb_spec c "+") as [->|_]; [exists (lit "+"); split; [right; left|]; reflexivity|].
  destruct (Ascii.eqb_spec c "-") as [->|_]; [exists (lit "-"); split; [right; right|]; reflexivity|]. exists []. split; [left|]; reflexivity.
Qed.
Lemma skip_sign_app sg r : signs sg -> match r with c :: _ => sign c = false | [] => True end -> skip_sign (sg ++ r) = r.
Proof. intros [-> | [-> | ->]] H; try reflexivity. destruct r; [reflexivity|]. cbn [app skip_sign]. now rewrite H. Qed.
Lemma digit_not_sign c : 48 <= code c <= 57 -> sign c = false.
Proof. intros H. unfold sign. destruct (Ascii.eqb_spec c "+") as [->|_]; [vm_compute in H; destruct H as [H _]; now contradiction H|]. destruct (Ascii.eqb_spec c "-") as [->|_]; [vm_compute in H; destruct H as [H _]; now contradiction H|]. reflexivity. Qed.
Lemma power_iff s : exponent s = true <-> power s.
Proof.
  split.
  - destruct s as [|c s]; [left; reflexivity|]. cbn [exponent]. intros H. apply andb_true_iff in H as [H1 H2]. right.
    destruct (skip_sign_spec s) as (sg & S1 & S2). destruct (skip_digits_spec (skip_sign s)) as (ds & D & E & L & _).
    destruct (skip_digits (skip_sign s)) as [n q]. cbn [fst snd] in *. destruct n; [discriminate|]. destruct q; [|discriminate]. rewrite app_nil_r in E.
    exists c, sg, ds. repeat split; try assumption.
    + apply orb_true_iff in H1 as [H1|H1]; apply Ascii.eqb_eq in H1; tauto.
    + intros ->. discriminate L.
    + rewrite S2. now rewrite E.
  - intros [-> | (e & sg & ds & He & S & D & N & ->)]; [reflexivity|]. cbn [exponent].
    assert (F : match ds with c :: _ => sign c = false | [] => True end) by (destruct D; [exact Logic.I|now apply digit_not_sign]).
    rewrite (skip_sign_app sg ds S F). rewrite <- (app_nil_r ds), (skip_digits_app ds [] D Logic.I). destruct ds; [now contradiction N|]. cbn [List.length].
    destruct He as [-> | ->]; reflexivity.
Qed.
Lemma power_head p : power p -> match p with c :: _ => digit c = false /\ sign c = false /\ Ascii.eqb c "." = false | [] => True end.
Proof. intros [-> | (e & sg & ds & [-> | ->] & _ & _ & _ & ->)]; repeat split. Qed.
(** What is understood as a number is exactly the numerals. *)
Theorem C69_numerals : forall s, number_syntax s = true <-> numeral s.
Proof.
  intros s. unfold number_syntax. split.
  - destruct (skip_sign_spec s) as (sg & S1 & S2). destruct (skip_digits_spec (skip_sign s)) as (a & D & E & L & _).
    destruct (skip_digits (skip_sign s)) as [n r]. cbn [fst snd] in *. destruct r as [|c r].
    + intros H. rewrite Nat.add_0_r in H. destruct n; [discriminate|]. exists sg, a, [], []. repeat split; try assumption; [constructor|destruct a; [discriminate L|discriminate]|left; reflexivity|].
      left. split; [now rewrite S2, E|reflexivity].
    + destruct (Ascii.eqb_spec c ".") as [->|_].
      * destruct (skip_digits_spec r) as (b & D' & E' & L' & _). destruct (skip_digits r) as [k q]. cbn [fst snd] in *. intros H.
        exists sg, a, b, q. repeat split; try assumption.
        -- intros X. apply app_eq_nil in X as [-> ->]. subst. discriminate H.
        -- apply power_iff. destruct (n + k)%nat; [discriminate|exact H].
        -- right. rewrite S2, E, E'. reflexivity.
      * intros H. rewrite Nat.add_0_r in H. exists sg, a, [], (c :: r). repeat split; try assumption.
        -- constructor.
        -- intros X. apply app_eq_nil in X as [-> _]. subst. discriminate H.
        -- apply power_iff. destruct n; [discriminate|exact H].
        -- left. split; [now rewrite S2, E|reflexivity].
  - intros (sg & a & b & p & S & Da & Db & N & P & [[-> ->] | ->]).
    + rewrite app_nil_r in N. pose proof (power_head p P) as Hp.
      rewrite (skip_sign_app sg (a ++ p) S) by (destruct Da; [now contradiction N|now apply digit_not_sign]).
      rewrite (skip_digits_app a p Da) by (destruct p; tauto).
      destruct p as [|c p]; [destruct a; [now contradiction N|reflexivity]|]. destruct Hp as (_ & _ & ->). destruct a; [now contradiction N|]. cbn [List.length Nat.add].
      now apply power_iff.
    + pose proof (power_head p P) as Hp.
      rewrite (skip_sign_app sg (a ++ lit "." ++ b ++ p) S) by (destruct Da; [reflexivity|now apply digit_not_sign]).
      change (lit "." ++ b ++ p) with ("."%char :: b ++ p). rewrite (skip_digits_app a ("."%char :: b ++ p) Da) by reflexivity.
      change (Ascii.eqb "." ".") with true. cbv iota. rewrite (skip_digits_app b p Db) by (destruct p; tauto).
      destruct (List.length a + List.length b)%nat eqn:Q; [|now apply power_iff]. destruct a; [|discriminate Q]. destruct b; [|discriminate Q]. now contradiction N.
Qed.
Print Assumptions C69_numerals.
Example C69_numerals_example : numeral (lit "-.5e+3") /\ ~ numeral (lit "e5") /\ ~ numeral (lit "1.2.3").
Proof. split; [apply C69_numerals; reflexivity|]. split; intros H; apply C69_numerals in H; discriminate H. Qed.

Lemma digits_chars ds : digits ds -> Forall (fun c => number_char c = true) ds.
Proof.
  intros D. eapply Forall_impl; [|exact D]. cbn beta. intros c H. unfold number_char. apply existsb_exists. exists c. split; [|apply ci_eqb_iff, same_refl].
  assert (X : exists k, 0 <= k <= 9 /\ c = ascii_of_N (Z.to_N (48 + k))).
  { exists (code c - 48). split; [lia|]. replace (48 + (code c - 48)) with (code c) by lia. unfold code. now rewrite N2Z.id, ascii_N_embedding. }
  destruct X as (k & Hk & ->). assert (K : k = 0 \/ k = 1 \/ k = 2 \/ k = 3 \/ k = 4 \/ k = 5 \/ k = 6 \/ k = 7 \/ k = 8 \/ k = 9) by lia.
  repeat destruct K as [->|K]; [..|subst k]; vm_compute; tauto.
Qed.
Lemma signs_chars sg : signs sg -> Forall (fun c => number_char c = true) sg.
Proof. intros [-> | [-> | ->]]; repeat constructor. Qed.
Lemma power_chars p : power p -> Forall (fun c => number_char c = true) p.
Proof.
  intros [-> | (e & sg & ds & He & S & D & _ & ->)]; [constructor|]. constructor; [destruct He as [-> | ->]; reflexivity|].
  apply Forall_app. split; [now apply signs_chars|now apply digits_chars].
Qed.
Lemma numeral_chars s : numeral s -> Forall (fun c => number_char c = true) s.
Proof.
  intros (sg & a & b & p & S & Da & Db & _ & P & [[-> _] | ->]); repeat (apply Forall_app; split);
    first [apply signs_chars; assumption|apply digits_chars; assumption|apply power_chars; assumption|repeat constructor].
Qed.
(** A cell of a file is a number exactly when its text is a numeral, empty when it has none, and otherwise a truth value, the text between
    two equality signs, or the text itself. *)
Theorem C69_cells : forall N T (value_of : str -> N) s,
  (numeral s -> as_cell (T := T) value_of s = CNum (value_of s)) /\
  (s = [] -> as_cell (T := T) value_of s = CEmpty) /\
  (same_up_to_case s (lit "TRUE") -> as_cell (T := T) value_of s = CBool true) /\
  (same_up_to_case s (lit "FALSE") -> as_cell (T := T) value_of s = CBool false) /\
  (forall t, s = lit "=" ++ t ++ lit "=" -> as_cell (T := T) value_of s = CStr t) /\
  (s <> [] -> ~ numeral s -> ~ same_up_to_case s (lit "TRUE") -> ~ same_up_to_case s (lit "FALSE") ->
   (forall t, s <> lit "=" ++ t) -> as_cell (T := T) value_of s = CStr s).
Proof.
  intros N T value_of s.
  assert (EQ : forall c, number_char c = true -> Ascii.eqb c "=" = false) by (intros c H; destruct (Ascii.eqb_spec c "=") as [->|_]; [discriminate H|reflexivity]).
  assert (SE : forall x : str, (exists y, x = "T"%char :: y \/ x = "F"%char :: y) -> same_up_to_case s x -> exists c r, s = c :: r /\ Ascii.eqb c "=" = false).
  { intros x (y & [-> | ->]) H; inversion H as [|c ? r ? H1 _]; subst; exists c, r; (split; [reflexivity|]); destruct (Ascii.eqb_spec c "=") as [->|_]; try reflexivity;
      apply ceq_same in H1; discriminate H1. }
  repeat split.
  - intros H. pose proof (numeral_chars s H) as C. pose proof H as H'. apply C69_numerals in H'. destruct s as [|c r]; [discriminate H'|].
    cbn [as_cell]. inversion C as [|? ? Hc Cr]; subst. rewrite (EQ c Hc). cbn [andb].
    assert (R : forall w d y, w = d :: y -> number_char d = false -> ci_eqb (c :: r) w = false).
    { intros w d y -> Hd. destruct (ci_eqb (c :: r) (d :: y)) eqn:Q; [|reflexivity]. apply ci_eqb_iff in Q. inversion Q as [|? ? ? ? Q1 _]; subst.
      unfold number_char in Hc, Hd. apply existsb_exists in Hc as (k & K1 & K2).
      assert (existsb (fun d0 => ci_eqb [d] [d0]) (lit "0123456789.eE+-") = true) as X; [|congruence].
      apply existsb_exists. exists k. split; [exact K1|]. apply ci_eqb_iff. apply ci_eqb_iff in K2. eapply same_trans; [|exact K2]. apply same_sym. constructor; [exact Q1|constructor]. }
    rewrite (R (lit "TRUE") "T"%char (lit "RUE") eq_refl eq_refl), (R (lit "FALSE") "F"%char (lit "ALSE") eq_refl eq_refl).
    replace (forallb number_char (c :: r)) with true by (symmetry; apply forallb_forall; rewrite Forall_forall in C; exact C). rewrite H'. reflexivity.
  - intros ->. reflexivity.
  - intros H. destruct (SE (lit "TRUE") (ex_intro _ (lit "RUE") (or_introl eq_refl)) H) as (c & r & -> & Q). cbn [as_cell]. rewrite Q. cbn [andb].
    apply ci_eqb_iff in H. now rewrite H.
  - intros H. destruct (SE (lit "FALSE") (ex_intro _ (lit "ALSE") (or_intror eq_refl)) H) as (c & r & -> & Q). cbn [as_cell]. rewrite Q. cbn [andb].
    replace (ci_eqb (c :: r) (lit "TRUE")) with false; [|symmetry; destruct (ci_eqb (c :: r) (lit "TRUE")) eqn:W; [|reflexivity]; apply ci_eqb_iff in W].
    + apply ci_eqb_iff in H. now rewrite H.
    + pose proof (same_trans _ _ _ (same_sym _ _ W) H) as X. apply ci_eqb_iff in X. discriminate X.
  - intros t ->. change (lit "=" ++ t ++ lit "=") with ("="%char :: t ++ ["="%char]). cbn [as_cell]. change (Ascii.eqb "=" "=") with true. cbn [andb].
    change ("="%char :: t ++ ["="%char]) with (("="%char :: t) ++ ["="%char]). rewrite last_last, removelast_last. reflexivity.
  - intros H1 H2 H3 H4 H5. destruct s as [|c r]; [contradiction|]. cbn [as_cell].
    destruct (Ascii.eqb_spec c "=") as [->|_]; [now contradiction (H5 r)|]. cbn [andb].
    destruct (ci_eqb (c :: r) (lit "TRUE")) eqn:Q1; [apply ci_eqb_iff in Q1; contradiction|].
    destruct (ci_eqb (c :: r) (lit "FALSE")) eqn:Q2; [apply ci_eqb_iff in Q2; contradiction|].
    destruct (number_syntax (c :: r)) eqn:Q3; [apply C69_numerals in Q3; contradiction|]. now rewrite andb_false_r.
Qed.
Print Assumptions C69_cells.
Example C69_cells_example : as_cell (T := unit) (fun s => s) (lit ".5") = CNum (lit ".5") /\ as_cell (T := unit) (fun s => s) (lit "=12=") = CStr (lit "12") /\
  as_cell (T := unit) (fun s => s) (lit "true") = CBool true /\ as_cell (T := unit) (fun s => s) (lit "1M") = CStr (lit "1M").
Proof. repeat split. Qed.

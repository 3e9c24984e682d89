(** C69: an object archived to a file of comma-separated values is read back from it. *)
From Coq Require Import String Ascii ZArith List Bool Lia ZifyBool DecimalString.
From Verif Require Import Base DateModel DateSpec DateProofs StringModel StringSpec StringProofs OMap DictModel DictSpec DictProofs SplatModel SplatSpec SplatProofs ShareModel ShareSpec ShareProofs SplatProps SplatFileModel SplatFileSpec SplatFileProofs SplatFileTree SplatFileShare SplatFileCells.
Import ListNotations.
Open Scope Z_scope.

(** Any sheet whose cells are understood and whose lines are at most 2047 characters long comes back with the same rows and the
    same cells, except that dates and times come back as texts and that a wholly empty last column is dropped. *)
Theorem C69_sheet : forall N T value_of as_int show_double show_time (g : grid N T),
  1 <= g_rows g -> 1 <= g_cols g -> (g_rows g + 1) * g_cols g <= 2147483647 ->
  (forall r c x, 0 <= r < g_rows g -> 0 <= c < g_cols g -> get g r c = Ok x -> survives value_of as_int show_double show_time x) ->
  sheet_fits as_int show_double show_time g ->
  exists text g', save as_int show_double show_time g = Ok text /\ file_table value_of (Some text) = Ok g' /\ g_rows g' = g_rows g /\
    (g_cols g' = g_cols g \/
     g_cols g' = g_cols g - 1 /\ forall r x, 0 <= r < g_rows g -> get g r (g_cols g - 1) = Ok x -> as_loaded show_time x = CEmpty) /\
    (forall r c x, 0 <= r < g_rows g' -> 0 <= c < g_cols g' -> get g r c = Ok x -> get g' r c = Ok (as_loaded show_time x)).
Proof.
  intros N T vo ai sd st g Hr Hc Hfit Hg Hl.
  destruct (sheet_back N T vo ai sd st g Hr Hc Hfit) as (text & g' & S1 & S2 & S3 & S4 & S5 & _).
  - intros r c Ir Ic. apply (Hg r c); [exact Ir|exact Ic|]. now apply SplatProofs.get_ok.
  - apply fits_lines; [lia|exact Hl].
  - exists text, g'. split; [exact S1|]. split; [exact S2|]. split; [exact S3|]. split.
    + destruct S4 as [S4|[S4 S6]]; [now left|right]. split; [exact S4|]. intros r x Ir E. rewrite SplatProofs.get_ok in E by lia. injection E as <-. now apply S6.
    + intros r c x Ir Ic E. rewrite SplatProofs.get_ok in E by (destruct S4 as [S4|[S4 _]]; lia). injection E as <-. rewrite SplatProofs.get_ok by lia. f_equal. now apply S5.
Qed.
Print Assumptions C69_sheet.

(** An object tree saved to a file is read back as the same tree. *)
Theorem C69_tree : forall N T value_of as_int show_double show_time (t : node N T) g,
  wf t -> is_object t -> storable value_of as_int show_double show_time t -> splat t = Ok g -> sheet_fits as_int show_double show_time g ->
  exists text g', save as_int show_double show_time g = Ok text /\ file_table value_of (Some text) = Ok g' /\
    shows g' (View 0 (g_rows g') 0) (tree_loaded show_time t).
Proof.
  intros N T vo ai sd st t g Hwf Hob Hst Hs Hl. apply (tree_back vo ai sd st t g Hwf Hob Hst Hs). apply fits_lines; [|exact Hl].
  destruct (splat_facts t g Hwf Hob Hs) as (_ & _ & F3 & _). lia.
Qed.
Print Assumptions C69_tree.

(** An object graph saved to a file and loaded is a copy of it, with shared objects shared. *)
Theorem C69_objects : forall N T value_of as_int show_double show_time (heap : nat -> object N T) schema rank root fuel g,
  (forall a, reachable heap root a -> archivable schema (heap a) /\ object_storable value_of as_int show_double show_time (heap a)) ->
  acyclic heap root rank -> archive heap fuel root = Ok g -> sheet_fits as_int show_double show_time g ->
  exists text g' h b, save as_int show_double show_time g = Ok text /\ file_table value_of (Some text) = Ok g' /\
    unarchive schema fuel g' = Ok (h, b) /\ is_copy (loaded show_time heap) root h b.
Proof.
  intros N T vo ai sd st heap schema rank root fuel g Hgood Hac Har Hl. apply (file_copy vo ai sd st heap schema rank root fuel g Hgood Hac Har).
  apply fits_lines; [|exact Hl]. unfold archive in Har.
  destruct (write_members heap fuel (members (heap root)) []) as [[x s]| | |] eqn:Ew; cbn [obind] in Har; try discriminate.
  destruct (shown_copy heap schema rank root fuel x s g (fun a Ha => proj1 (Hgood a Ha)) Hac Ew) as [Hwf _].
  destruct (splat_facts _ g Hwf Logic.I Har) as (_ & _ & F3 & _). lia.
Qed.
Print Assumptions C69_objects.

(** ** The cells that are understood *)
(** text: exactly the texts that are empty or that hold no comma, quote, line end or zero byte, are not between equals signs, are
    not the words true and false, and are not numbers *)
Theorem C69_text : forall N T (value_of : str -> N) as_int show_double show_time s,
  survives value_of as_int show_double show_time (CStr s : DictModel.cell N T) <-> s = [] \/ kept_text s.
Proof.
  intros N T vo ai sd st s. unfold survives, kept_text. cbn [coerce_to_string as_loaded]. destruct s as [|c r].
  - split; [now left|intros _]. exists []. split; [reflexivity|]. split; [repeat split; intros []|reflexivity].
  - split.
    + intros (s & E & Hp & Ha). injection E as <-. right. split; [exact Hp|]. now apply as_cell_text in Ha.
    + intros [E|[Hp Ha]]; [discriminate|]. exists (c :: r). split; [reflexivity|]. split; [exact Hp|]. now apply as_cell_text.
Qed.
Print Assumptions C69_text.
Example C69_text_example : kept_text (lit "USD curve 3M") /\ kept_text (lit "1e") /\ kept_text (lit "=x").
Proof.
  assert (forall s, (existsb (fun c => Ascii.eqb c comma || Ascii.eqb c quote || Ascii.eqb c newline || Ascii.eqb c nul) s = false) -> plain s) as Hp.
  { intros s H. repeat split; intros G; enough (existsb (fun c => Ascii.eqb c comma || Ascii.eqb c quote || Ascii.eqb c newline || Ascii.eqb c nul) s = true) by congruence;
      apply existsb_exists; eexists; (split; [exact G|reflexivity]). }
  unfold kept_text. rewrite <- !same_ci.
  repeat split; try reflexivity; try (apply Hp; reflexivity); vm_compute; intros [G1 G2]; discriminate.
Qed.

(** whole numbers: what the file holds is their decimal text *)
Theorem C69_whole_numbers : forall N T value_of as_int show_double show_time (x : N) z, as_int x = Ok (Some z) ->
  (survives value_of as_int show_double show_time (CNum x : DictModel.cell N T) <-> value_of (show_int z) = x).
Proof.
  intros N T vo ai sd st x z E. unfold survives. cbn [coerce_to_string as_loaded]. rewrite E. cbn [obind]. split.
  - intros (s & Es & _ & Ha). injection Es as <-. rewrite as_cell_int in Ha. now injection Ha.
  - intros Ha. exists (show_int z). split; [reflexivity|]. split; [apply dull_plain, show_int_dull|]. now rewrite as_cell_int, Ha.
Qed.
Print Assumptions C69_whole_numbers.
(** truth values, empty cells and dates always; the date read back is the date saved, save for the dates misread from their
    texts (C01) *)
Theorem C69_values : forall N T (value_of : str -> N) as_int show_double (show_time : T -> str),
  survives value_of as_int show_double show_time CEmpty /\
  (forall b, survives value_of as_int show_double show_time (CBool b)) /\
  (forall d, 1 <= d < 65536 -> survives value_of as_int show_double show_time (CDate d) /\
     (in_bad_window (ymd d) = false -> extract_date (as_loaded (N := N) show_time (CDate d)) = extract_date (CDate d : DictModel.cell N T))).
Proof.
  intros N T vo ai sd st. split; [|split].
  - exists []. split; [reflexivity|]. split; [repeat split; intros []|reflexivity].
  - intros b. exists (if b then lit "true" else lit "false"). split; [reflexivity|]. split; [|now destruct b].
    destruct b; repeat split; cbn; intros G; repeat (destruct G as [G|G]; [discriminate|]); exact G.
  - intros d Hd. destruct (string_round_trip d Hd) as [R1 R2]. destruct (@date_cell N T vo _ R2) as [D1 D2]. split.
    + exists (list_ascii_of_string (DateModel.to_string d)). split; [reflexivity|]. split; [exact D1|exact D2].
    + intros Hb. cbn [as_loaded extract_date]. rewrite string_of_list_ascii_of_string, R1, Hb. reflexivity.
Qed.
Print Assumptions C69_values.
Example C69_values_example : 1 <= 18322 < 65536 /\ in_bad_window (ymd 18322) = false.
Proof. vm_compute. repeat split; discriminate. Qed.
(** a number that is not whole goes through its text of six decimals: numbers with the same text cannot both come back *)
Theorem C69_decimals_refuted : forall N T value_of as_int show_double show_time (x y : N), x <> y ->
  as_int x = Ok None -> as_int y = Ok None -> show_double x = show_double y ->
  ~ (survives value_of as_int show_double show_time (CNum x : DictModel.cell N T) /\ survives value_of as_int show_double show_time (CNum y : DictModel.cell N T)).
Proof.
  intros N T vo ai sd st x y Hne Hx Hy E [(s & A1 & _ & A2) (s' & B1 & _ & B2)]. cbn [coerce_to_string as_loaded] in *. rewrite Hx in A1. rewrite Hy in B1.
  cbn [obind] in *. injection A1 as <-. injection B1 as <-. rewrite E in A2. rewrite A2 in B2. injection B2 as B2. contradiction.
Qed.
Print Assumptions C69_decimals_refuted.

(** ** An example *)
Definition ex_value (s : str) : Z := match NilZero.int_of_string (string_of_list_ascii s) with Some i => Z.of_int i | None => 0 end.
Definition ex_int (x : Z) : outcome (option Z) := Ok (Some x).
Definition ex_show (x : Z) : str := [].
Definition ex_time (t : unit) : str := [].
Lemma int_text z : ex_value (show_int z) = z.
Proof.
  unfold ex_value, show_int. destruct (to_int_not_nil z). rewrite string_of_list_ascii_of_string, NilZero.isi by assumption.
  apply DecimalZ.of_to.
Qed.
Fixpoint all_fit (g : grid Z unit) (r : Z) (n : nat) : bool :=
  match n with
  | O => true
  | S k => match sheet_row g r with
           | Ok l => (fold_right Z.add 0 (map (width ex_int ex_show ex_time) l) + zlen l - 1 <=? 2047) | _ => true end && all_fit g (r + 1) k
  end.
Lemma all_fit_ok g n : forall r, all_fit g r n = true -> forall q l, r <= q < r + Z.of_nat n -> sheet_row g q = Ok l -> line_fits ex_int ex_show ex_time l.
Proof.
  induction n as [|n IH]; intros r H q l Hq E; [lia|]. cbn [all_fit] in H. apply andb_true_iff in H as [H1 H2].
  destruct (Z.eq_dec q r) as [->|]; [|apply (IH (r + 1) H2 q l); [lia|exact E]]. rewrite E in H1. unfold line_fits. lia.
Qed.
Definition num_survives x : survives ex_value ex_int ex_show ex_time (CNum x : DictModel.cell Z unit) :=
  proj2 (C69_whole_numbers Z unit ex_value ex_int ex_show ex_time x x eq_refl) (int_text x).
Lemma text_survives s : as_cell (T := unit) ex_value s = CStr s ->
  existsb (fun c => Ascii.eqb c comma || Ascii.eqb c quote || Ascii.eqb c newline || Ascii.eqb c nul) s = false ->
  survives ex_value ex_int ex_show ex_time (CStr s : DictModel.cell Z unit) /\ plain s.
Proof.
  intros Ha H. assert (plain s) as Hp.
  { repeat split; intros G; enough (existsb (fun c => Ascii.eqb c comma || Ascii.eqb c quote || Ascii.eqb c newline || Ascii.eqb c nul) s = true) by congruence;
      apply existsb_exists; eexists; (split; [exact G|reflexivity]). }
  split; [|exact Hp]. destruct s; [discriminate|]. exists (a :: s). split; [reflexivity|]. split; [exact Hp|exact Ha].
Qed.
Example C69_objects_example :
  (forall a, reachable ex_heap 0 a -> archivable ex_schema (ex_heap a) /\ object_storable ex_value ex_int ex_show ex_time (ex_heap a)) /\
  acyclic ex_heap 0 (fun a => (3 - a)%nat) /\
  (exists g, archive ex_heap 3 0 = Ok g /\ sheet_fits ex_int ex_show ex_time g) /\
  (do g <- archive ex_heap 3 0; do s <- save ex_int ex_show ex_time g; do g' <- file_table (T := unit) ex_value (Some s); unarchive ex_schema 3 g') =
    Ok (3%nat, [Object (lit "Base") [(lit "n", MScalar (CNum 7))];
                Object (lit "Crv") [(lit "v", MVector (CNum 1) [CNum 2]); (lit "base", MRef 0%nat)];
                Object (lit "Crv") [(lit "v", MVector (CNum 5) []); (lit "base", MRef 0%nat)];
                Object (lit "Port") [(lit "left", MRef 1%nat); (lit "right", MRef 2%nat); (lit "again", MRef 1%nat)]]).
Proof.
  destruct C28_sharing_example as (H1 & H2 & _). split; [|split; [exact H2|split]].
  - intros a Ha. split; [now apply H1|]. unfold object_storable. clear.
    destruct a as [|[|[|a]]]; cbn [ex_heap otype members]; (split; [now apply text_survives|]);
      repeat (constructor; [split; [now apply text_survives|cbn [snd member_storable]; try exact Logic.I]|]);
      try constructor; try apply num_survives; repeat (constructor; try apply num_survives); intros [E|E]; discriminate.
  - destruct (archive ex_heap 3 0) as [g| | |] eqn:E; try (vm_compute in E; discriminate). exists g. split; [reflexivity|].
    assert (all_fit g 0 (Z.to_nat (g_rows g)) = true) as Hf.
    { enough ((do g <- archive ex_heap 3 0; Ok (all_fit g 0 (Z.to_nat (g_rows g)))) = Ok true) as G by (rewrite E in G; cbn [obind] in G; now injection G). vm_compute. reflexivity. }
    intros r l Hr. apply (all_fit_ok g _ 0 Hf). lia.
  - vm_compute. reflexivity.
Qed.

(** A last line need not be ended. *)
Theorem C69_last_line : forall before final, Forall (fun l => ~ In newline l /\ ~ In nul l /\ zlen l <= 2047) before -> ~ In newline final -> ~ In nul final -> zlen final <= 2047 ->
  final <> [] -> read_lines (file_bytes before ++ final) = before ++ [final].
Proof.
  intros before final Hb Hn Hz Hl Hne. unfold read_lines. induction Hb as [|l lines (H1 & H2 & H3) Hr IH].
  - unfold file_bytes. cbn [flat_map app].
    assert (forall l t n, ~ In newline l -> (List.length l <= n)%nat -> (t <> [] \/ l <> []) -> read_from t n l = [c_str (rev t ++ l)]) as G.
    { clear. induction l as [|c l IH]; intros t n Hn Hl Ht; cbn [List.length] in Hl; cbn [read_from].
      - destruct Ht as [Ht|Ht]; [|congruence]. rewrite app_nil_r. destruct t; [congruence|reflexivity].
      - destruct (Ascii.eqb_spec c newline) as [->|]; [exfalso; apply Hn; now left|]. destruct n as [|n]; [lia|]. rewrite IH; [|intros G; apply Hn; now right|lia|left; discriminate]. cbn [rev]. now rewrite <- app_assoc. }
    rewrite G; [|exact Hn|unfold line_room, zlen in *; lia|now right]. cbn [rev app]. now rewrite (c_str_id final Hz).
  - unfold file_bytes in *. cbn [app flat_map]. rewrite (c_str_id l H2), <- !app_assoc. cbn [app].
    rewrite read_from_line; [|exact H1|unfold line_room, zlen in *; lia]. cbn [rev app]. rewrite (c_str_id l H2). now rewrite IH.
Qed.
Print Assumptions C69_last_line.
Example C69_last_line_case : read_lines (file_bytes [lit "a,1"] ++ lit "b,2") = [lit "a,1"; lit "b,2"].
Proof. reflexivity. Qed.
(** The texts read as numbers: an optional sign, digits with at most one point before, among or after them, and an optional exponent. *)
Definition signs (s : str) : Prop := s = [] \/ s = lit "+" \/ s = lit "-".
Definition digits (s : str) : Prop := Forall (fun c => 48 <= Z.of_nat (nat_of_ascii c) <= 57) s.
Definition numeral (s : str) : Prop :=
  exists sg whole part e, s = sg ++ whole ++ part ++ e /\ signs sg /\ digits whole /\
    (part = [] /\ whole <> [] \/ exists d, part = "."%char :: d /\ digits d /\ whole ++ d <> []) /\
    (e = [] \/ exists c sg' d, e = c :: sg' ++ d /\ (c = "e"%char \/ c = "E"%char) /\ signs sg' /\ digits d /\ d <> []).
Lemma digit_iff c : digit c = true <-> 48 <= Z.of_nat (nat_of_ascii c) <= 57.
Proof. unfold digit. lia. Qed.
Lemma skip_digits_take s : exists a, s = a ++ snd (skip_digits s) /\ digits a /\ List.length a = fst (skip_digits s).
Proof.
  induction s as [|c s (a & E & D & L)]; [exists []; repeat split; constructor|]. cbn [skip_digits]. destruct (digit c) eqn:Ec.
  - destruct (skip_digits s) as [k q]. cbn [fst snd] in *. exists (c :: a). cbn [app List.length]. split; [now rewrite <- E|]. split; [constructor; [now apply digit_iff|exact D]|now rewrite L].
  - exists []. repeat split. constructor.
Qed.
Lemma skip_digits_app a rest : digits a -> match rest with c :: _ => digit c = false | [] => True end -> skip_digits (a ++ rest) = (List.length a, rest).
Proof.
  intros D Hr. induction D as [|c a Hc D IH]; cbn [app List.length].
  - destruct rest as [|c r]; [reflexivity|]. cbn [skip_digits]. now rewrite Hr.
  - cbn [skip_digits]. apply digit_iff in Hc. rewrite Hc, IH. reflexivity.
Qed.
Lemma skip_sign_take s : exists sg, s = sg ++ skip_sign s /\ signs sg.
Proof.
  destruct s as [|c s]; [exists []; split; [reflexivity|now left]|]. cbn [skip_sign]. unfold sign. destruct (Ascii.eqb_spec c "+") as [->|]; [exists (lit "+"); split; [reflexivity|right; now left]|].
  destruct (Ascii.eqb_spec c "-") as [->|]; [exists (lit "-"); split; [reflexivity|right; now right]|]. exists []. split; [reflexivity|now left].
Qed.
Lemma digit_no_sign c : digit c = true -> sign c = false.
Proof. intros H. unfold sign. destruct (Ascii.eqb_spec c "+") as [->|]; [discriminate|]. destruct (Ascii.eqb_spec c "-") as [->|]; [discriminate|reflexivity]. Qed.
Lemma skip_sign_app sg r : signs sg -> match r with c :: _ => sign c = false | [] => True end -> skip_sign (sg ++ r) = r.
Proof. intros [->|[->| ->]] H; [|reflexivity|reflexivity]. destruct r as [|c r]; [reflexivity|]. cbn [app skip_sign]. now rewrite H. Qed.
Lemma number_char_digit c : digit c = true -> number_char c = true.
Proof. unfold digit. intros H. assert (K : (48 <= nat_of_ascii c <= 57)%nat) by lia. rewrite <- (ascii_nat_embedding c). set (n := nat_of_ascii c) in *. clearbody n. clear c H. do 48 (destruct n as [|n]; [lia|]). do 10 (destruct n as [|n]; [reflexivity|]). lia. Qed.
Theorem C69_numbers : forall s, forallb number_char s && number_syntax s = true <-> numeral s.
Proof.
  intros s. split.
  - intros H%andb_prop. destruct H as [_ H]. unfold number_syntax in H. destruct (skip_sign_take s) as (sg & Es & Hsg). destruct (skip_digits_take (skip_sign s)) as (a & Ea & Da & La).
    destruct (skip_digits (skip_sign s)) as [k r]. cbn [fst snd] in *.
    assert (Ex : forall q, exponent q = true -> q = [] \/ exists c sg' d, q = c :: sg' ++ d /\ (c = "e"%char \/ c = "E"%char) /\ signs sg' /\ digits d /\ d <> []).
    { intros [|c q] Hq; [now left|right]. cbn [exponent] in Hq. apply andb_prop in Hq. destruct Hq as [Hc Hq]. destruct (skip_sign_take q) as (sg' & Eq & Hs'). destruct (skip_digits_take (skip_sign q)) as (d & Ed & Dd & Ld).
      destruct (skip_digits (skip_sign q)) as [[|n] [|? ?]]; try discriminate. cbn [fst snd] in *. rewrite app_nil_r in Ed. exists c, sg', d. split; [now rewrite <- Ed, <- Eq|]. split; [apply orb_prop in Hc; destruct Hc as [Hc|Hc]; apply Ascii.eqb_eq in Hc; auto|].
      split; [exact Hs'|]. split; [exact Dd|]. intros ->. discriminate. }
    destruct r as [|c r].
    + exists sg, a, [], []. rewrite Nat.add_0_r in H. split; [cbn [app]; now rewrite <- Ea, <- Es|]. split; [exact Hsg|]. split; [exact Da|]. split; [left; split; [reflexivity|]; intros ->; cbn in La; subst k; discriminate|now left].
    + destruct (Ascii.eqb_spec c ".") as [->|Hc].
      * destruct (skip_digits_take r) as (b & Eb & Db & Lb). destruct (skip_digits r) as [j q]. cbn [fst snd] in *. exists sg, a, ("."%char :: b), q. split; [cbn [app]; rewrite <- Eb, <- Ea; exact Es|]. split; [exact Hsg|]. split; [exact Da|].
        split; [right; exists b; split; [reflexivity|]; split; [exact Db|]; intros Z; apply app_eq_nil in Z; destruct Z; subst; discriminate|]. apply Ex. destruct (k + j)%nat; [discriminate|exact H].
      * exists sg, a, [], (c :: r). split; [cbn [app]; rewrite <- Ea; exact Es|]. split; [exact Hsg|]. split; [exact Da|]. rewrite Nat.add_0_r in H. destruct k; [discriminate|].
        split; [left; split; [reflexivity|]; intros ->; discriminate|now apply Ex].
  - intros (sg & a & part & e & -> & Hsg & Da & Hp & He).
    assert (Cd : forall d, digits d -> forallb number_char d = true) by (intros d D; induction D as [|c d Hc _ IH]; [reflexivity|]; cbn [forallb]; rewrite IH, number_char_digit; [reflexivity|now apply digit_iff]).
    assert (Cs : forall g, signs g -> forallb number_char g = true) by (intros g [->|[->| ->]]; reflexivity).
    assert (Ce : forallb number_char e = true) by (destruct He as [->|(c & sg' & d & -> & Hc & Hs & Dd & _)]; [reflexivity|]; cbn [forallb]; rewrite forallb_app, Cs, Cd by assumption; destruct Hc as [->| ->]; reflexivity).
    assert (Cp : forallb number_char part = true) by (destruct Hp as [[-> _]|(d & -> & Dd & _)]; [reflexivity|]; cbn [forallb]; now rewrite Cd by assumption).
    rewrite !forallb_app, (Cs sg Hsg), (Cd a Da), Cp, Ce. cbn [andb]. unfold number_syntax.
    assert (Hed : match e with c :: _ => digit c = false | [] => True end) by (destruct He as [->|(c & sg' & d & -> & [->| ->] & _)]; [exact Logic.I|reflexivity|reflexivity]).
    assert (Hx : exponent e = true).
    { destruct He as [->|(c & sg' & d & -> & Hc & Hs & Dd & Nd)]; [reflexivity|]. cbn [exponent]. destruct d as [|x d]; [congruence|]. inversion Dd as [|? ? Dx Dd']; subst.
      rewrite skip_sign_app; [|exact Hs|apply digit_no_sign; now apply digit_iff]. rewrite <- (app_nil_r (x :: d)), (skip_digits_app (x :: d) [] Dd Logic.I). destruct Hc as [->| ->]; reflexivity. }
    assert (Hss : skip_sign (sg ++ a ++ part ++ e) = a ++ part ++ e).
    { apply skip_sign_app; [exact Hsg|]. destruct a as [|x a]; [|inversion Da; subst; cbn [app]; apply digit_no_sign; now apply digit_iff]. cbn [app]. destruct Hp as [[-> Hn]|(d & -> & _)]; [congruence|reflexivity]. }
    rewrite Hss. destruct Hp as [[-> Hn]|(d & -> & Dd & Hn)].
    + cbn [app]. rewrite (skip_digits_app a e Da Hed). destruct a as [|x a]; [congruence|]. destruct e as [|c r]; [reflexivity|]. destruct (Ascii.eqb_spec c ".") as [->|_]; [destruct He as [He|(c & ? & ? & E & [->| ->] & _)]; discriminate|]. cbn [List.length Nat.add]. exact Hx.
    + cbn [app]. rewrite (skip_digits_app a ("."%char :: d ++ e) Da eq_refl). change (Ascii.eqb "." ".") with true. cbn iota. rewrite (skip_digits_app d e Dd Hed). destruct (List.length a + List.length d)%nat eqn:El; [|exact Hx].
      exfalso. apply Hn. destruct a; [|cbn in El; lia]. destruct d; [reflexivity|cbn in El; lia].
Qed.
Print Assumptions C69_numbers.
Example C69_numbers_case : numeral (lit "-.5e+3") /\ ~ numeral (lit ".") /\ numeral (lit "12.").
Proof. split; [apply C69_numbers; reflexivity|]. split; [intros H; apply C69_numbers in H; discriminate|apply C69_numbers; reflexivity]. Qed.

(** ** What is lost *)
(** A line of more than 2047 characters ends the reading: it and every line after it are silently missing. *)
Theorem C69_long_line_refuted : forall before long after,
  Forall (fun l => ~ In newline l /\ ~ In nul l /\ zlen l <= 2047) before -> ~ In newline long -> ~ In nul long -> 2047 < zlen long ->
  read_lines (file_bytes (before ++ long :: after)) = before.
Proof.
  intros before long after Hb Hn Hz Hl. unfold read_lines. induction Hb as [|l lines (H1 & H2 & H3) Hr IH].
  - cbn [app]. unfold file_bytes. cbn [flat_map]. rewrite (c_str_id long Hz), <- app_assoc.
    assert (forall l t n s, ~ In newline l -> (n < length l)%nat -> read_from t n (l ++ s) = []) as Hlong.
    { clear. induction l as [|c l IH]; intros t n s Hn Hl; cbn [List.length] in Hl; [lia|]. cbn [app read_from].
      destruct (Ascii.eqb_spec c newline) as [->|]; [exfalso; apply Hn; now left|]. destruct n; [reflexivity|]. apply IH; [intros G; apply Hn; now right|lia]. }
    apply Hlong; [exact Hn|]. unfold line_room, zlen in *. lia.
  - unfold file_bytes in *. cbn [app flat_map]. rewrite (c_str_id l H2), <- app_assoc. cbn [app].
    rewrite read_from_line; [|exact H1|unfold line_room, zlen in *; lia]. cbn [rev app]. rewrite (c_str_id l H2). now rewrite IH.
Qed.
Print Assumptions C69_long_line_refuted.
(** an object with a vector of 1100 numbers: the loaded table has no rows, and building the object from it reads outside it *)
Definition long_heap (a : nat) : object Z unit := Object (lit "Crv") [(lit "v", MVector (CNum 1) (repeat (CNum 1) (Z.to_nat 1099)))].
Definition long_schema (t : str) : option (list (str * kind)) := Some [(lit "v", KVector)].
Theorem C69_long_vector_refuted :
  (do g <- archive long_heap 0 0; do x <- unarchive long_schema 0 g; Ok (fst x)) = Ok 0%nat /\
  (do g <- archive long_heap 0 0; do s <- save ex_int ex_show ex_time g; do g' <- file_table (T := unit) ex_value (Some s); Ok (g_rows g', g_cols g')) = Ok (0, 0) /\
  (do g <- archive long_heap 0 0; do s <- save ex_int ex_show ex_time g; do g' <- file_table (T := unit) ex_value (Some s); unarchive long_schema 0 g') = UB.
Proof. vm_compute. repeat split. Qed.
Print Assumptions C69_long_vector_refuted.
(** a file that is not there, or is empty: the same *)
Theorem C69_missing_file_refuted : forall N T (value_of : str -> N) schema fuel (bytes : option str), bytes = None \/ bytes = Some [] ->
  (do g <- file_table (T := T) value_of bytes; unarchive schema fuel g) = UB.
Proof. intros N T vo schema fuel bytes [->| ->]; reflexivity. Qed.
Print Assumptions C69_missing_file_refuted.
(** texts that come back as something else: numbers, truth values, text between equals signs; a comma splits its text in two and
    moves the rest of the row, a quote swallows the commas after it *)
Theorem C69_text_refuted : forall T (show_time : T -> str),
  as_cell (T := T) ex_value (lit "12") = CNum 12 /\ as_cell (T := T) ex_value (lit "True") = CBool true /\
  as_cell (T := T) ex_value (lit "=ab=") = CStr (lit "ab") /\
  map (as_cell (T := T) ex_value) (split_line (accumulate [lit "a,b"; lit "7"] [comma] false)) = [CStr (lit "a"); CStr (lit "b"); CNum 7] /\
  map (as_cell (T := T) ex_value) (split_line (accumulate [lit "5"""; lit "7"] [comma] false)) = [CStr (lit "5"",7")].
Proof. intros T st. vm_compute. repeat split. Qed.
Print Assumptions C69_text_refuted.

(** Writing an object graph as text and building it from the text. *)
From Coq Require Import String Ascii ZArith List Bool Lia DecimalString DecimalZ.
From Verif Require Import Base DateModel DateSpec DateCivil DateProofs StringModel StringSpec StringProofs DictModel SplatModel SplatFileModel ShareProofs JsonModel JsonSpec JsonText.
Import ListNotations.
Open Scope Z_scope.

(** * Tags *)
Lemma number_tag_same i j : same_up_to_case (show_int i) (show_int j) -> i = j.
Proof. intros H. apply show_int_inj. apply same_digitish; auto using show_int_digitish. Qed.
Fixpoint tags_ok (s : tags) : Prop :=
  match s with [] => True | (b, t) :: r => t = new_tag r /\ tag_for r b = None /\ tags_ok r end.
Lemma tag_for_in s a t : tag_for s a = Some t -> In (a, t) s.
Proof.
  induction s as [|[b u] s IH]; [discriminate|]. cbn [tag_for]. destruct (Nat.eqb a b) eqn:E.
  - intros H. injection H as ->. apply Nat.eqb_eq in E as ->. now left.
  - intros H. right. auto.
Qed.
Lemma tag_for_none s a t : tag_for s a = None -> ~ In (a, t) s.
Proof.
  induction s as [|[b u] s IH]; [intros _ []|]. cbn [tag_for]. destruct (Nat.eqb a b) eqn:E; [discriminate|].
  intros H [G|G]; [injection G as -> ->; rewrite Nat.eqb_refl in E; discriminate|]. now apply IH.
Qed.
Lemma tags_number s : tags_ok s -> forall x t, In (x, t) s -> exists i, 1 <= i <= zlen s /\ t = show_int i.
Proof.
  induction s as [|[b u] s IH]; [intros _ x t []|]. intros (H1 & H2 & H3) x t Hin. unfold zlen in *. cbn [length].
  destruct Hin as [G|G].
  - injection G as <- <-. exists (1 + zlen s). split; [unfold zlen; lia|exact H1].
  - destruct (IH H3 x t G) as (i & Hi & Ht). exists i. split; [lia|exact Ht].
Qed.
Lemma tags_inj s : tags_ok s -> forall x y t u, In (x, t) s -> In (y, u) s -> same_up_to_case t u -> x = y /\ t = u.
Proof.
  induction s as [|[b v] s IH]; [intros _ x y t u []|]. intros (H1 & H2 & H3) x y t u Hx Hy Hs.
  assert (forall z w, In (z, w) s -> ~ same_up_to_case w v /\ ~ same_up_to_case v w) as Hne.
  { intros z w Hz. destruct (tags_number s H3 z w Hz) as (i & Hi & ->). rewrite H1. unfold new_tag.
    split; intros G; apply number_tag_same in G; lia. }
  destruct Hx as [Hx|Hx], Hy as [Hy|Hy].
  - injection Hx as <- <-. injection Hy as <- <-. auto.
  - injection Hx as <- <-. apply Hne in Hy. tauto.
  - injection Hy as <- <-. apply Hne in Hx. tauto.
  - eapply IH; eauto.
Qed.
Lemma tags_fun s : tags_ok s -> forall x t u, In (x, t) s -> In (x, u) s -> t = u.
Proof.
  induction s as [|[b v] s IH]; [intros _ x t u []|]. intros (H1 & H2 & H3) x t u Hx Hy.
  destruct Hx as [Hx|Hx], Hy as [Hy|Hy].
  - congruence.
  - injection Hx as <- <-. exfalso. eapply tag_for_none; eauto.
  - injection Hy as <- <-. exfalso. eapply tag_for_none; eauto.
  - eapply IH; eauto.
Qed.
Lemma new_tag_fresh s : tags_ok s -> forall x u, In (x, u) s -> ~ same_up_to_case u (new_tag s).
Proof.
  intros H x u Hin G. destruct (tags_number s H x u Hin) as (i & Hi & ->). unfold new_tag in G. apply number_tag_same in G. lia.
Qed.
Lemma new_tag_safe s : safe (new_tag s).
Proof. apply show_int_safe. unfold zlen. lia. Qed.

(** * Values *)
Section Values.
Context {N T : Type}.
Variables (of_int : Z -> N) (show_double : N -> str) (value_of : str -> N) (show_time : T -> str) (read_time : str -> outcome T) (time_of : N -> outcome T).
Notation atom := (atom N T).
Notation value := (value N T).
Notation storable := (@storable N T show_double show_time read_time).
Notation storable_value := (@storable_value N T show_double show_time read_time).
Notation as_stored := (@as_stored N T show_double value_of).
Notation value_stored := (@value_stored N T show_double value_of).
Notation atom_text := (atom_text of_int show_double show_time).
Notation member_text := (member_text of_int show_double show_time).
Notation read_atom := (read_atom value_of read_time time_of).
Notation read_value := (read_value value_of read_time time_of).

Lemma matches_length p : forall s, matches p s = true -> length s = length p.
Proof. induction p as [|x p IH]; intros [|c s] H; try discriminate; [reflexivity|]. cbn [matches] in H. apply andb_true_iff in H as [_ H]. cbn [length]. now rewrite IH. Qed.
Lemma date_char n : 0 <= n <= 9 -> SplatFileModel.digit (DateModel.digit n) = true.
Proof. intros H. assert (n = 0 \/ n = 1 \/ n = 2 \/ n = 3 \/ n = 4 \/ n = 5 \/ n = 6 \/ n = 7 \/ n = 8 \/ n = 9) as G by lia. repeat (destruct G as [->|G]; [reflexivity|]). now subst. Qed.
Lemma safe_digit c : SplatFileModel.digit c = true -> c <> quote /\ c <> "\"%char /\ (32 <= nat_of_ascii c)%nat.
Proof. intros H. exact (Forall_inv (digits_safe [c] (Forall_cons _ H (Forall_nil _)))). Qed.
Lemma date_text d : kept_date d -> let t := list_ascii_of_string (DateModel.to_string d) in
  safe t /\ matches date_pattern t = true /\ DateModel.from_string (string_of_list_ascii t) = Ok d.
Proof.
  intros [H1 H2] t. destruct (string_round_trip d H1) as [E _]. rewrite H2 in E. unfold t. rewrite string_of_list_ascii_of_string, E.
  pose proof (ymd_civil d H1) as Hc. assert (Hs : supported (ymd d)) by (eapply civil_supported; [eassumption|lia]).
  unfold DateModel.to_string. destruct (ymd d) as [[y m] dd]. pose proof (supported_year _ _ _ Hs) as (Hy & Hm & Hd). pose proof (month_len_range y m).
  assert (forall n, 0 <= n <= 9 -> SplatFileModel.digit (DateModel.digit n) = true) as G by exact date_char.
  assert (0 <= y / 1000 <= 9 /\ 0 <= y / 100 mod 10 <= 9 /\ 0 <= y mod 100 / 10 <= 9 /\ 0 <= (y mod 100) mod 10 <= 9 /\ 0 <= m / 10 <= 9 /\ 0 <= m mod 10 <= 9 /\ 0 <= dd / 10 <= 9 /\ 0 <= dd mod 10 <= 9)
    as (A1 & A2 & A3 & A4 & A5 & A6 & A7 & A8) by (clear E t Hc Hs; repeat split; Z.div_mod_to_equations; lia).
  apply G in A1, A2, A3, A4, A5, A6, A7, A8. unfold pad4, pad2. cbn [String.append list_ascii_of_string].
  set (c1 := DateModel.digit (y / 1000)) in *. set (c2 := DateModel.digit (y / 100 mod 10)) in *. set (c3 := DateModel.digit (y mod 100 / 10)) in *.
  set (c4 := DateModel.digit ((y mod 100) mod 10)) in *. set (c5 := DateModel.digit (m / 10)) in *. set (c6 := DateModel.digit (m mod 10)) in *.
  set (c7 := DateModel.digit (dd / 10)) in *. set (c8 := DateModel.digit (dd mod 10)) in *. clearbody c1 c2 c3 c4 c5 c6 c7 c8.
  split; [|split; [|reflexivity]].
  - repeat (constructor; [first [apply safe_digit; assumption|repeat split; [discriminate|discriminate|cbn; lia]]|]). constructor.
  - cbn -[SplatFileModel.digit]. now rewrite A1, A2, A3, A4, A5, A6, A7, A8.
Qed.
Lemma not_like b : ~ b = true -> b = false. Proof. destruct b; congruence. Qed.
Lemma time_not_date s : matches time_pattern s = true -> matches date_pattern s = false.
Proof. intros H. apply not_like. intros G. apply matches_length in H, G. rewrite H in G. discriminate. Qed.
(** every element is read back from what the parser makes of its text *)
Lemma atom_ok a : storable a -> exists j, reads (atom_text a) j /\ read_atom (akind_of a) j = Ok (as_stored a).
Proof.
  intros Hs. destruct a as [x|z|b|s|d|t|c]; cbn [JsonSpec.storable JsonModel.atom_text akind_of JsonModel.read_atom JsonSpec.as_stored] in *.
  - exists (JNum (show_double x)). split; [now apply reads_decimal|]. unfold e_double. now rewrite (decimal_double _ Hs).
  - contradiction.
  - exists (JBool b). split; [apply reads_bool|reflexivity].
  - exists (JStr s). split; [now apply reads_quoted|]. cbn [e_string obind]. now rewrite safe_c_str.
  - destruct (date_text d Hs) as (D1 & D2 & D3). eexists. split; [now apply reads_quoted|]. cbn [e_date]. rewrite safe_c_str by exact D1. now rewrite D3.
  - destruct Hs as [D1 D2]. eexists. split; [now apply reads_quoted|]. cbn [e_time]. rewrite safe_c_str by exact D1. now rewrite D2.
  - destruct c as [|b|x|d|t|s]; cbn [cell_text].
    + exists (JStr []). split; [apply reads_quoted; constructor|reflexivity].
    + exists (JBool b). split; [apply reads_bool|reflexivity].
    + exists (JNum (show_double x)). split; [now apply reads_decimal|]. cbn [e_cell]. now rewrite (decimal_double _ Hs).
    + destruct (date_text d Hs) as (D1 & D2 & D3). eexists. split; [now apply reads_quoted|]. cbn [e_cell]. rewrite safe_c_str by exact D1. now rewrite D2, D3.
    + destruct Hs as [[D1 D2] D3]. eexists. split; [now apply reads_quoted|]. cbn [e_cell]. rewrite safe_c_str by exact D1. now rewrite (time_not_date _ D3), D3, D2.
    + destruct Hs as (D1 & D2 & D3). eexists. split; [now apply reads_quoted|]. cbn [e_cell]. rewrite safe_c_str by exact D1.
      unfold like_date, like_time in *. now rewrite (not_like _ D2), (not_like _ D3).
Qed.
Lemma atoms_ok k l : Forall (fun a => storable a /\ akind_of a = k) l -> exists js, Forall2 reads (map atom_text l) js /\
  read_atoms value_of read_time time_of k js = Ok (map as_stored l).
Proof.
  induction 1 as [|a l [H1 H2] Hl (js & G1 & G2)]; [exists []; split; [constructor|reflexivity]|].
  destruct (atom_ok a H1) as (j & J1 & J2). exists (j :: js). split; [constructor; assumption|]. cbn [read_atoms map]. rewrite <- H2, J2. cbn [obind]. rewrite H2. now rewrite G2.
Qed.
Lemma cut_ok (w : nat) : forall (m : list (list atom)), Forall (fun r => length r = w) m -> cut_rows w (length m) (concat m) = m.
Proof.
  induction 1 as [|r m H Hm IH]; [reflexivity|]. cbn [length cut_rows concat]. subst w. rewrite firstn_app, Nat.sub_diag, firstn_all, skipn_app, Nat.sub_diag, skipn_all.
  cbn [firstn skipn app]. now rewrite app_nil_r, IH.
Qed.
Lemma concat_length (w : nat) (m : list (list atom)) : Forall (fun r => length r = w) m -> length (concat m) = (length m * w)%nat.
Proof. induction 1 as [|r m H Hm IH]; [reflexivity|]. cbn [concat length]. rewrite app_length, IH, H. lia. Qed.
Lemma as_matrix_ok w (m : list (list atom)) : 0 < w -> Forall (fun r => zlen r = w) m -> as_matrix w (concat m) = Ok m.
Proof.
  intros Hw Hm. assert (Forall (fun r : list atom => length r = Z.to_nat w) m) as Hm' by (eapply Forall_impl; [|exact Hm]; cbn beta; unfold zlen; intros; lia).
  unfold as_matrix. unfold zlen. rewrite (concat_length _ _ Hm'). rewrite Nat2Z.inj_mul, Z2Nat.id by lia. rewrite Z.mod_mul, Z.div_mul by lia.
  replace (0 <? w) with true by lia. cbn [andb]. rewrite Z.eqb_refl. rewrite Nat2Z.id. now rewrite cut_ok.
Qed.
Lemma concat_map2 (f : atom -> atom) (m : list (list atom)) : map f (concat m) = concat (map (map f) m).
Proof. apply concat_map. Qed.
Lemma value_ok v : storable_value v -> (forall a, v <> VRef a) -> exists j, reads (member_text v) j /\ read_value (kind_of v) j = Ok (value_stored v).
Proof.
  intros Hs Hn. destruct v as [a|k l|k w m|a]; cbn [JsonModel.member_text JsonSpec.storable_value kind_of JsonModel.read_value JsonSpec.value_stored] in *.
  - destruct Hs as [Hs Hk]. destruct (atom_ok a Hs) as (j & J1 & J2). exists j. split.
    + destruct a; cbn in Hk; try exact J1; destruct Hk as [?|[?|?]]; discriminate.
    + rewrite J2. reflexivity.
  - destruct (atoms_ok k l Hs) as (js & J1 & J2). exists (JArr js). split.
    + apply (reads_arr [] _ js); [constructor|exact J1].
    + cbn [as_vector]. now rewrite J2.
  - destruct Hs as [Hw Hm].
    assert (Forall (fun a => storable a /\ akind_of a = k) (concat m)) as Hall.
    { clear -Hm. induction Hm as [|r m [_ H] Hm IH]; [constructor|]. cbn [concat]. apply Forall_app. auto. }
    destruct (atoms_ok k _ Hall) as (js & J1 & J2).
    exists (JObj [(lit "rows", JNum (show_int (zlen m))); (lit "cols", JNum (show_int w)); (lit "vals", JArr js)]). split.
    + assert (matrix_text of_int show_double show_time w m = "{"%char :: " "%char :: entry (lit "rows", show_int (zlen m)) ++
          more [(lit "cols", show_int w); (lit "vals", "["%char :: joined (comma :: lit " ") (map atom_text (concat m)) ++ lit "]")] ++ lit "}") as ->.
      { unfold matrix_text, more, entry, quoted. cbn [flat_map fst snd]. unfold dq, lit. cbn -[show_int joined app JsonModel.atom_text concat].
        repeat progress (rewrite <- ?app_assoc; cbn [app]). reflexivity. }
      assert (forall s, forallb (fun c => negb (Ascii.eqb c quote) && negb (Ascii.eqb c "\") && Nat.leb 32 (nat_of_ascii c)) s = true -> safe s) as Hsafe.
      { intros s Hs. apply Forall_forall. intros c Hc. rewrite forallb_forall in Hs. apply Hs in Hc. apply andb_true_iff in Hc as [Hc Hc3]. apply andb_true_iff in Hc as [Hc1 Hc2].
        apply negb_true_iff, Ascii.eqb_neq in Hc1, Hc2. apply Nat.leb_le in Hc3. auto. }
      apply (reads_obj " " (lit "rows", _) (lit "rows", JNum _)); [reflexivity|reflexivity|now apply Hsafe|apply reads_int; unfold zlen; lia|].
      constructor; [split; [reflexivity|]; split; [now apply Hsafe|apply reads_int; lia]|]. constructor; [|constructor]. split; [reflexivity|]. split; [now apply Hsafe|].
      apply (reads_arr (lit " ")); [repeat constructor|exact J1].
    + cbn [member lookup]. cbn -[show_int as_matrix as_vector e_int]. unfold e_int at 1. rewrite json_int_show by lia. cbn [obind as_vector]. rewrite J2. cbn [obind].
      rewrite concat_map2. rewrite as_matrix_ok; [reflexivity|lia|]. clear -Hm. induction Hm as [|r m [H _] Hm IH]; [constructor|]. constructor; [|exact IH].
      unfold zlen in *. now rewrite map_length.
  - exfalso. now apply (Hn a).
Qed.
End Values.

(** * Looking up members *)
Definition heads (d : json) (ns : list str) : Prop :=
  exists l, d = JObj l /\ (length ns <= length l)%nat /\ (forall n, In n ns -> exists j, lookup l n = Some j) /\ (forall n, ~ In n (labels ++ ns) -> lookup l n = None).
Definition visible (d : json) (js : list (str * json)) : Prop := forall n j, In (n, j) js -> member d n = Ok j.
Lemma lookup_none l n : ~ In n (map fst l) -> lookup l n = None.
Proof.
  induction l as [|[k v] l IH]; [reflexivity|]. cbn [map fst lookup In]. intros H. destruct (list_eq_dec ascii_dec k n) as [E|E]; [tauto|]. apply IH. tauto.
Qed.
Lemma lookup_some l n j : NoDup (map fst l) -> In (n, j) l -> lookup l n = Some j.
Proof.
  induction l as [|[k v] l IH]; [intros _ []|]. cbn [map fst lookup]. intros Hd [E|E].
  - injection E as -> ->. destruct (list_eq_dec ascii_dec n n); [reflexivity|congruence].
  - inversion Hd; subst. destruct (list_eq_dec ascii_dec k n) as [->|E']; [exfalso; apply H1; apply in_map_iff; exists (n, j); auto|]. now apply IH.
Qed.
Definition distinct (ns : list str) : Prop := ForallOrdPairs (fun p q => ~ same_up_to_case p q) ns.
Lemma distinct_nodup ns : distinct ns -> NoDup ns.
Proof. induction 1 as [|n ns H Hd IH]; constructor; auto. intros Hin. rewrite Forall_forall in H. apply (H n Hin). apply same_refl. Qed.
Lemma type_ne_tag : lit "~type" <> lit "$tag". Proof. discriminate. Qed.
Lemma object_doc (tag : option str) ty js : let d := JObj (match tag with Some t => [(lit "$tag", JStr t)] | None => [] end ++ (lit "~type", JStr ty) :: js) in
  match tag with Some t => safe t | None => True end -> safe ty -> distinct (map fst js) -> Forall (fun n => ~ In n labels) (map fst js) ->
  label (lit "$tag") d = Ok (match tag with Some t => t | None => [] end) /\ label (lit "~type") d = Ok ty /\ heads d (map fst js) /\ visible d js.
Proof.
  intros d Ht Hty Hd Hl. rewrite Forall_forall in Hl.
  assert (lookup js (lit "$tag") = None) as L1 by (apply lookup_none; intros H; apply Hl in H; apply H; cbn; tauto).
  assert (forall n, In n (map fst js) -> lookup (match tag with Some t => [(lit "$tag", JStr t)] | None => [] end ++ (lit "~type", JStr ty) :: js) n = lookup js n) as L2.
  { intros n Hn. apply Hl in Hn. unfold labels in Hn. cbn [In] in Hn. destruct tag; cbn [app lookup].
    - destruct (list_eq_dec ascii_dec (lit "$tag") n); [tauto|]. destruct (list_eq_dec ascii_dec (lit "~type") n); [tauto|]. reflexivity.
    - destruct (list_eq_dec ascii_dec (lit "~type") n); [tauto|]. reflexivity. }
  repeat split.
  - unfold label, d, has_member, member. destruct tag as [t|]; cbn [app lookup].
    + destruct (list_eq_dec ascii_dec (lit "$tag") (lit "$tag")); [|congruence]. cbn [obind e_string]. now rewrite safe_c_str.
    + destruct (list_eq_dec ascii_dec (lit "~type") (lit "$tag")) as [E|_]; [now apply type_ne_tag in E|]. now rewrite L1.
  - unfold label, d, has_member, member.
    assert (lookup (match tag with Some t => [(lit "$tag", JStr t)] | None => [] end ++ (lit "~type", JStr ty) :: js) (lit "~type") = Some (JStr ty)) as ->.
    { destruct tag; cbn [app lookup].
      - destruct (list_eq_dec ascii_dec (lit "$tag") (lit "~type")) as [E|_]; [discriminate E|]. destruct (list_eq_dec ascii_dec (lit "~type") (lit "~type")); congruence.
      - destruct (list_eq_dec ascii_dec (lit "~type") (lit "~type")); congruence. }
    cbn [obind e_string]. now rewrite safe_c_str.
  - eexists. split; [reflexivity|]. split; [rewrite map_length, app_length; cbn [length]; lia|]. split.
    + intros n Hn. rewrite L2 by exact Hn. apply in_map_iff in Hn as ([n' j] & <- & Hin). exists j. apply lookup_some; [now apply distinct_nodup|exact Hin].
    + intros n Hn. apply lookup_none. intros Hin. apply Hn. rewrite map_app in Hin. apply in_app_or in Hin as [Hin|Hin].
      * apply in_or_app. left. destruct tag; [|contradiction]. destruct Hin as [<-|[]]. now left.
      * cbn [map fst] in Hin. destruct Hin as [<-|Hin]; apply in_or_app; [left; right; now left|now right].
  - intros n j Hin. unfold member, d. assert (In n (map fst js)) as Hn by (apply in_map_iff; exists (n, j); auto). rewrite L2 by exact Hn.
    now rewrite (lookup_some js n j) by (try apply distinct_nodup; assumption).
Qed.

(** * Writing and reading run side by side *)
Section Sim.
Context {N T : Type}.
Variables (of_int : Z -> N) (show_double : N -> str) (value_of : str -> N) (show_time : T -> str) (read_time : str -> outcome T) (time_of : N -> outcome T).
Notation atom := (atom N T).
Notation value := (value N T).
Notation object := (object N T).
Notation storable_value := (@storable_value N T show_double show_time read_time).
Notation value_stored := (@value_stored N T show_double value_of).
Notation member_text := (@member_text N T of_int show_double show_time).
Notation read_value := (@read_value N T value_of read_time time_of).
Notation write_members := (@write_members N T of_int show_double show_time).
Notation read_members := (@read_members N T value_of read_time time_of).
Notation member_copy := (@member_copy N T show_double value_of).
Notation archivable := (@archivable N T show_double show_time read_time).
Notation is_copy := (@is_copy N T show_double value_of).
Variable heap : nat -> object.
Variable schema : str -> option (list field).
Variable rank : nat -> nat.
Variable live : nat -> Prop.
Hypothesis Hgood : forall a, live a -> archivable schema (heap a).
Hypothesis Hdown : forall a n b, live a -> In (n, VRef b) (members (heap a)) -> live b /\ (rank b < rank a)%nat.

Notation asked := (fun p : str * value => (fst p, kind_of (snd p))).
Lemma numbered_ok d ns n k : heads d ns -> forall (vs : list value) i fuel, Forall (fun v => kind_of v = k) vs -> (length vs < fuel)%nat ->
  (forall j, (i <= j < i + length vs)%nat -> In (numbered_name n j) ns) -> ~ In (numbered_name n (i + length vs)) (labels ++ ns) ->
  numbered d n k i fuel = Ok (map asked (combine (map (numbered_name n) (seq i (length vs))) vs)).
Proof.
  clear heap schema rank live Hgood Hdown of_int show_double value_of show_time read_time time_of. intros (l & -> & _ & Hin & Hout). induction vs as [|v vs IH]; intros i fuel Hk Hf Hthere Hend.
  - destruct fuel as [|fuel]; [cbn in Hf; lia|]. cbn [numbered has_member obind]. fold (numbered_name n i). cbn [length] in Hend. rewrite Nat.add_0_r in Hend. rewrite (Hout _ Hend). reflexivity.
  - destruct fuel as [|fuel]; [cbn in Hf; lia|]. cbn [numbered has_member obind]. fold (numbered_name n i). cbn [length] in *.
    destruct (Hin (numbered_name n i)) as (j & ->); [apply Hthere; lia|]. rewrite (IH (S i) fuel).
    + cbn [obind seq map combine fst snd]. now rewrite (Forall_inv Hk).
    + exact (Forall_inv_tail Hk).
    + lia.
    + intros j' Hj'. apply Hthere. lia.
    + replace (S i + length vs)%nat with (i + S (length vs))%nat by lia. exact Hend.
Qed.
Lemma combine_names (f : nat -> str) (vs : list value) : forall i, map fst (combine (map f (seq i (length vs))) vs) = map f (seq i (length vs)).
Proof. induction vs as [|v vs IH]; intros i; [reflexivity|]. cbn [length seq map combine fst]. now rewrite IH. Qed.
Lemma nodup_split (a b : list str) : NoDup (a ++ b) -> NoDup a /\ NoDup b.
Proof.
  induction a as [|x a IH]; cbn [app]; intros H; [split; [constructor|exact H]|]. inversion H as [|? ? H1 H2]; subst. destruct (IH H2). split; [constructor|]; auto.
  intros G. apply H1. apply in_or_app. now left.
Qed.
Lemma present_ok d ns : heads d ns -> forall fs (l : list (str * value)), fits (labels ++ ns) fs l -> (forall n, In n (map fst l) -> In n ns) -> NoDup (map fst l) ->
  present d fs = Ok (map asked l).
Proof.
  clear heap schema rank live Hgood Hdown of_int show_double value_of show_time read_time time_of. intros Hh. pose proof Hh as (L & Ed & Hlen & Hin & Hout). induction 1 as [|n v fs l H IH|n v fs l H IH|n k fs l Hn H IH|n k vs fs l Hk Hn H IH]; intros Hsub Hnd.
  - reflexivity.
  - cbn [present map fst snd] in *. inversion Hnd; subst. rewrite IH; [reflexivity|intros x Hx; apply Hsub; now right|assumption].
  - cbn [present map fst snd] in *. inversion Hnd; subst. cbn [has_member obind]. destruct (Hin n) as (j & ->); [apply Hsub; now left|]. rewrite IH; [reflexivity|intros x Hx; apply Hsub; now right|assumption].
  - cbn [present]. subst d. cbn [has_member obind]. rewrite (Hout n Hn). rewrite IH; auto.
  - cbn [present]. pose proof (combine_names (numbered_name n) vs 0) as Ec. rewrite map_app, Ec in Hnd.
    assert (forall x, In x (map (numbered_name n) (seq 0 (length vs)) ++ map fst l) -> In x ns) as Hsub' by (intros x Hx; apply Hsub; rewrite map_app, Ec; exact Hx).
    clear Hsub. rename Hsub' into Hsub.
    rewrite (numbered_ok d ns n k Hh vs 0 (S (size d)) Hk).
    + cbn [obind]. rewrite IH.
      * cbn [obind]. now rewrite map_app.
      * intros x Hx. apply Hsub. apply in_or_app. now right.
      * exact (proj2 (nodup_split _ _ Hnd)).
    + subst d. cbn [size]. assert (length vs <= length ns)%nat; [|lia].
      assert (NoDup (map (numbered_name n) (seq 0 (length vs)))) as Hnd1 by exact (proj1 (nodup_split _ _ Hnd)).
      pose proof (NoDup_incl_length Hnd1 (l' := ns)) as G. rewrite map_length, seq_length in G. apply G. intros x Hx. apply Hsub. apply in_or_app. now left.
    + intros j Hj. apply Hsub. apply in_or_app. left. apply in_map_iff. exists j. split; [reflexivity|]. apply in_seq. lia.
    + exact Hn.
Qed.

Lemma handle_for_same kn t u : same_up_to_case t u -> handle_for kn t = handle_for kn u.
Proof.
  intros H. induction kn as [|[x h] kn IH]; [reflexivity|]. cbn [handle_for]. rewrite IH.
  replace (ci_eqb x u) with (ci_eqb x t); [reflexivity|]. apply eq_true_iff_eq. rewrite !ci_eqb_iff.
  split; intros G; eapply same_trans; eauto using same_sym.
Qed.
Definition cp (s : tags) (kn : known) (a h : nat) : Prop := exists t, In (a, t) s /\ handle_for kn t = Some h.
Record Inv (s : tags) (kn : known) (b : built N T) (bound : nat) : Prop := {
  i1 : forall x t, In (x, t) s -> (rank x < bound)%nat -> exists h, handle_for kn t = Some h;
  i2 : forall x t h, In (x, t) s -> handle_for kn t = Some h ->
         exists o, nth_error b h = Some o /\ otype o = otype (heap x) /\
                   Forall2 (member_copy (cp s kn)) (members (heap x)) (members o);
  i3 : forall x t y u h, In (x, t) s -> In (y, u) s -> handle_for kn t = Some h -> handle_for kn u = Some h -> x = y;
  i4 : forall t h, handle_for kn t = Some h -> exists x u, In (x, u) s /\ same_up_to_case u t }.

Lemma member_copy_mono (c c' : nat -> nat -> Prop) (p q : str * value) : (forall a h, c a h -> c' a h) -> member_copy c p q -> member_copy c' p q.
Proof. intros H [H1 H2]. split; [exact H1|]. destruct (snd p), (snd q); auto. Qed.
Lemma copies_mono (c c' : nat -> nat -> Prop) l m : (forall a h, c a h -> c' a h) -> Forall2 (member_copy c) l m -> Forall2 (member_copy c') l m.
Proof. intros H. induction 1; constructor; eauto using member_copy_mono. Qed.
Lemma cp_mono s kn s' kn' : (forall p, In p s -> In p s') -> (forall t h, handle_for kn t = Some h -> handle_for kn' t = Some h) ->
  forall a h, cp s kn a h -> cp s' kn' a h.
Proof. intros H1 H2 a h (t & G1 & G2). exists t. auto. Qed.

Definition reads_back (fuel : nat) (r : list (str * value)) (s : tags) (js : list (str * json)) (s' : tags) (bound : nat) : Prop :=
  forall d kn b, visible d js -> Inv s kn b bound ->
  exists ml kn' b', read_members schema fuel d (map asked r) kn b = Ok (ml, kn', b') /\
    Inv s' kn' b' bound /\ Forall2 (member_copy (cp s' kn')) r ml /\
    (forall t h, handle_for kn t = Some h -> handle_for kn' t = Some h) /\ (exists b2, b' = b ++ b2) /\
    (forall t h, handle_for kn' t = Some h -> handle_for kn t = Some h \/ exists x u, In (x, u) s' /\ ~ In (x, u) s /\ same_up_to_case u t).
Definition well_written (bound : nat) (r : list (str * value)) (s : tags) (x : str) (es : list (str * str)) (js : list (str * json)) (s' : tags) : Prop :=
  tags_ok s' /\ (exists new, s' = new ++ s /\ forall x t, In (x, t) new -> live x /\ (rank x < bound)%nat) /\
  x = more es /\ reads_all es js /\ map fst js = map fst r.
Definition fine (bound : nat) (r : list (str * value)) : Prop :=
  (forall n b, In (n, VRef b) r -> live b /\ (rank b < bound)%nat) /\ Forall (fun p => safe (fst p) /\ storable_value (snd p)) r.
Lemma fine_tail bound p r : fine bound (p :: r) -> safe (fst p) /\ storable_value (snd p) /\ fine bound r.
Proof.
  intros [H1 H2]. inversion H2 as [|? ? [H3 H4] H5]; subst. repeat split; auto.
  - apply (H1 n). now right.
  - apply (H1 n). now right.
Qed.
Lemma fine_members a : live a -> fine (rank a) (members (heap a)).
Proof.
  intros H. split; [intros n b Hb; exact (Hdown a n b H Hb)|]. destruct (Hgood a H) as (_ & _ & _ & G & _). eapply Forall_impl; [|exact G]. cbn beta. tauto.
Qed.
Lemma distinct_members a : live a -> distinct (map fst (members (heap a))) /\ Forall (fun n => ~ In n labels) (map fst (members (heap a))).
Proof.
  intros H. destruct (Hgood a H) as (_ & _ & _ & G4 & G). split.
  - clear -G. induction G as [|p l Hp Hl IH]; constructor; [|exact IH]. clear -Hp. rewrite Forall_forall in *. intros x Hx. apply in_map_iff in Hx as (q & <- & Hq). now apply Hp.
  - apply Forall_forall. intros x Hx. apply in_map_iff in Hx as (q & <- & Hq). rewrite Forall_forall in G4. apply (G4 q Hq).
Qed.

Lemma read_value_step fuel d n (m : value) r kn b : (forall a, m <> VRef a) ->
  read_members schema fuel d (map asked ((n, m) :: r)) kn b =
  (do v' <- member d n; do x <- read_value (kind_of m) v';
   do (q2, b2) <- read_members schema fuel d (map asked r) kn b;
   let '(ml, kn2) := q2 in Ok ((n, x) :: ml, kn2, b2)).
Proof. intros Hn. destruct m; destruct fuel; try reflexivity; exfalso; eapply Hn; reflexivity. Qed.
Lemma write_value_step fuel n (m : value) r seen s : (forall a, m <> VRef a) ->
  write_members heap fuel ((n, m) :: r) seen s = do (x, s') <- write_members heap fuel r (n :: seen) s; Ok (name_entry seen n ++ member_text m ++ x, s').
Proof. intros Hn. destruct m; destruct fuel; try reflexivity; exfalso; eapply Hn; reflexivity. Qed.
Definition deeper (fuel : nat) (d : json) :=
  match fuel with O => fun _ _ _ => OutOfFuel | S f => read_members schema f d end.
Lemma read_ref_step fuel d n a r kn b :
  read_members schema fuel d (map asked ((n, VRef a) :: r)) kn b =
  (do v' <- member d n;
   do (q, b1) <- extract schema (deeper fuel v') v' kn b;
   let '(h, kn1) := q in
   do (q2, b2) <- read_members schema fuel d (map asked r) kn1 b1;
   let '(ml, kn2) := q2 in Ok ((n, VRef h) :: ml, kn2, b2)).
Proof. destruct fuel; reflexivity. Qed.
Lemma write_ref_step fuel n a r seen s :
  write_members heap fuel ((n, VRef a) :: r) seen s =
  match tag_for s a with
  | Some t => do (x, s') <- write_members heap fuel r (n :: seen) s; Ok (name_entry seen n ++ (tag_entry true t ++ lit "}") ++ x, s')
  | None =>
      match fuel with
      | O => OutOfFuel
      | S f =>
          do (y, s1) <- write_members heap f (members (heap a)) [] ((a, new_tag s) :: s);
          do (x, s') <- write_members heap fuel r (n :: seen) s1;
          Ok (name_entry seen n ++ (tag_entry true (new_tag s) ++ type_entry false (otype (heap a)) ++ y ++ lit "}") ++ x, s')
      end
  end.
Proof. destruct fuel; reflexivity. Qed.

Lemma handle_cons t h kn u : handle_for ((t, h) :: kn) u = if ci_eqb t u then Some h else handle_for kn u.
Proof. reflexivity. Qed.
Lemma new_object_inv s s1 a t kn kn1 b b1 ml bound :
  live a -> tags_ok s1 -> (exists new, s1 = new ++ (a, t) :: s /\ forall x u, In (x, u) new -> live x /\ (rank x < rank a)%nat) ->
  Inv s kn b bound -> Inv s1 kn1 b1 (rank a) -> handle_for kn t = None ->
  (forall u h, handle_for kn u = Some h -> handle_for kn1 u = Some h) ->
  (forall u h, handle_for kn1 u = Some h -> handle_for kn u = Some h \/ exists x w, In (x, w) s1 /\ ~ In (x, w) ((a, t) :: s) /\ same_up_to_case w u) ->
  Forall2 (member_copy (cp s1 kn1)) (members (heap a)) ml ->
  (forall u h, handle_for kn1 u = Some h -> handle_for ((t, length b1) :: kn1) u = Some h) /\
  Inv s1 ((t, length b1) :: kn1) (b1 ++ [Object (otype (heap a)) ml]) bound.
Proof.
  intros La Hok (new & -> & Hnew) I0 I1 Hnone Hmono Hdom Hml.
  assert (In (a, t) (new ++ (a, t) :: s)) as Hat by (apply in_or_app; right; now left).
  assert (forall u, same_up_to_case t u -> handle_for kn1 u = None) as Hn1.
  { intros u Hu. destruct (handle_for kn1 u) as [h|] eqn:E; [|reflexivity]. exfalso. apply Hdom in E as [E|(x & w & H1 & H2 & H3)].
    - rewrite <- (handle_for_same _ _ _ Hu) in E. congruence.
    - destruct (tags_inj _ Hok x a w t H1 Hat) as [-> ->]; [eapply same_trans; [exact H3|now apply same_sym]|]. apply H2. now left. }
  assert (forall u h, handle_for kn1 u = Some h -> handle_for ((t, length b1) :: kn1) u = Some h) as Hm.
  { intros u h H. rewrite handle_cons. destruct (ci_eqb t u) eqn:E; [|exact H]. apply ci_eqb_iff in E. rewrite (Hn1 u E) in H. discriminate. }
  split; [exact Hm|]. split.
  - intros x u Hin Hr. apply in_app_or in Hin as [Hin|[Hin|Hin]].
    + destruct (i1 _ _ _ _ I1 x u) as (h & Hh); [apply in_or_app; now left|apply (Hnew x u Hin)|]. eauto.
    + injection Hin as <- <-. exists (length b1). rewrite handle_cons. now rewrite (proj2 (ci_eqb_iff t t) (same_refl t)).
    + destruct (i1 _ _ _ _ I0 x u Hin Hr) as (h & Hh). eauto.
  - intros x u h Hin Hh. rewrite handle_cons in Hh. destruct (ci_eqb t u) eqn:E.
    + injection Hh as <-. apply ci_eqb_iff in E. destruct (tags_inj _ Hok a x t u Hat Hin E) as [<- <-].
      exists (Object (otype (heap a)) ml). rewrite nth_error_app2, Nat.sub_diag by lia. repeat split.
      cbn [members]. eapply copies_mono; [|exact Hml]. apply cp_mono; auto.
    + destruct (i2 _ _ _ _ I1 x u h Hin Hh) as (o & O1 & O2 & O3). exists o. split; [|split; [exact O2|]].
      * rewrite nth_error_app1; [exact O1|]. apply nth_error_Some. congruence.
      * eapply copies_mono; [|exact O3]. apply cp_mono; auto.
  - assert (forall x u h, In (x, u) (new ++ (a, t) :: s) -> handle_for kn1 u = Some h -> (h < length b1)%nat) as Hlt.
    { intros x u h Hin Hh. destruct (i2 _ _ _ _ I1 x u h Hin Hh) as (o & O1 & _). apply nth_error_Some. congruence. }
    intros x u y w h Hx Hy Hu Hw. rewrite handle_cons in Hu, Hw.
    destruct (ci_eqb t u) eqn:E1, (ci_eqb t w) eqn:E2.
    + apply ci_eqb_iff in E1, E2. destruct (tags_inj _ Hok a x t u Hat Hx E1). destruct (tags_inj _ Hok a y t w Hat Hy E2). congruence.
    + injection Hu as <-. pose proof (Hlt y w _ Hy Hw). lia.
    + injection Hw as <-. pose proof (Hlt x u _ Hx Hu). lia.
    + exact (i3 _ _ _ _ I1 x u y w h Hx Hy Hu Hw).
  - intros u h Hu. rewrite handle_cons in Hu. destruct (ci_eqb t u) eqn:E.
    + apply ci_eqb_iff in E. exists a, t. auto.
    + exact (i4 _ _ _ _ I1 u h Hu).
Qed.
Lemma inv_open s kn b bound a t : Inv s kn b bound -> (rank a <= bound)%nat -> handle_for kn t = None ->
  Inv ((a, t) :: s) kn b (rank a).
Proof.
  intros H0 Hr Hn. split.
  - intros x u [Hx|Hx] Hlt; [injection Hx as <- <-; lia|]. apply (i1 _ _ _ _ H0 x u Hx). lia.
  - intros x u h [Hx|Hx] Hh; [injection Hx as <- <-; congruence|]. destruct (i2 _ _ _ _ H0 x u h Hx Hh) as (o & O1 & O2 & O3).
    exists o. split; [exact O1|]. split; [exact O2|]. eapply copies_mono; [|exact O3]. apply cp_mono; auto. intros p Hp. now right.
  - intros x u y w h [Hx|Hx] [Hy|Hy] Hu Hw.
    + congruence.
    + injection Hx as <- <-. congruence.
    + injection Hy as <- <-. congruence.
    + exact (i3 _ _ _ _ H0 x u y w h Hx Hy Hu Hw).
  - intros u h Hu. destruct (i4 _ _ _ _ H0 u h Hu) as (x & w & G1 & G2). exists x, w. split; [now right|exact G2].
Qed.

(** the name of a member is written when no other member has it *)
Lemma fresh_name seen n : Forall (fun m => ~ same_up_to_case m n) seen -> name_entry seen n = comma :: newline :: quoted n ++ lit ": ".
Proof.
  intros H. unfold name_entry. replace (existsb (ci_eqb n) seen) with false; [reflexivity|]. symmetry. apply not_true_is_false. intros G.
  apply existsb_exists in G as (m & Hm & E). apply ci_eqb_iff in E. rewrite Forall_forall in H. apply (H m Hm). now apply same_sym.
Qed.
Lemma more_cons n t es : more ((n, t) :: es) = (comma :: newline :: quoted n ++ lit ": ") ++ t ++ more es.
Proof. unfold more. cbn [flat_map]. unfold entry. cbn [fst snd app]. rewrite <- !app_assoc. reflexivity. Qed.
Lemma label_safe : safe (lit "$tag") /\ safe (lit "~type").
Proof. split; repeat (constructor; [repeat split; [discriminate|discriminate|cbn; lia]|]); constructor. Qed.
Lemma ref_text t : safe t -> reads (tag_entry true t ++ lit "}") (JObj [(lit "$tag", JStr t)]).
Proof.
  intros Ht. assert (tag_entry true t ++ lit "}" = "{"%char :: newline :: entry (lit "$tag", quoted t) ++ more [] ++ lit "}") as ->.
  { unfold tag_entry, prep, entry, quoted. unfold dq, lit. cbn. repeat progress (rewrite <- ?app_assoc; cbn [app]). reflexivity. }
  apply (reads_obj newline (lit "$tag", quoted t) (lit "$tag", JStr t)); [reflexivity|reflexivity|apply label_safe|now apply reads_quoted|constructor].
Qed.
Lemma object_text t ty es js : safe t -> safe ty -> reads_all es js ->
  reads (tag_entry true t ++ type_entry false ty ++ more es ++ lit "}") (JObj ((lit "$tag", JStr t) :: (lit "~type", JStr ty) :: js)).
Proof.
  intros Ht Hty Hall. assert (tag_entry true t ++ type_entry false ty ++ more es ++ lit "}" = "{"%char :: newline :: entry (lit "$tag", quoted t) ++ more ((lit "~type", quoted ty) :: es) ++ lit "}") as ->.
  { rewrite more_cons. unfold tag_entry, type_entry, prep, entry, quoted. unfold dq, lit. cbn -[more app]. cbn [app]. repeat progress (rewrite <- ?app_assoc; cbn [app]). reflexivity. }
  apply (reads_obj newline (lit "$tag", quoted t) (lit "$tag", JStr t)); [reflexivity|reflexivity|apply label_safe|now apply reads_quoted|].
  constructor; [|exact Hall]. cbn [fst snd]. split; [reflexivity|]. split; [apply label_safe|now apply reads_quoted].
Qed.
Lemma root_text ty es js : safe ty -> reads_all es js -> reads (type_entry true ty ++ more es ++ lit "}") (JObj ((lit "~type", JStr ty) :: js)).
Proof.
  intros Hty Hall. assert (type_entry true ty ++ more es ++ lit "}" = "{"%char :: newline :: entry (lit "~type", quoted ty) ++ more es ++ lit "}") as ->.
  { unfold type_entry, prep, entry, quoted. unfold dq, lit. cbn -[more app]. cbn [app]. repeat progress (rewrite <- ?app_assoc; cbn [app]). reflexivity. }
  apply (reads_obj newline (lit "~type", quoted ty) (lit "~type", JStr ty)); [reflexivity|reflexivity|apply label_safe|now apply reads_quoted|exact Hall].
Qed.

Lemma sim fuel : forall r seen s x s' bound, write_members heap fuel r seen s = Ok (x, s') -> tags_ok s -> fine bound r ->
  distinct (map fst r) -> Forall (fun m => Forall (fun n => ~ same_up_to_case m n) (map fst r)) seen ->
  exists es js, well_written bound r s x es js s' /\ reads_back fuel r s js s' bound.
Proof.
  induction fuel as [fuel IHf] using (well_founded_induction Wf_nat.lt_wf).
  induction r as [|[n m] r IHr]; intros seen s x0 s' bound Hwr Hok Hfine Hdist Hseen.
  - assert (Ok ([], s) = Ok (x0, s')) as E by (destruct fuel; exact Hwr). injection E as <- <-. exists [], []. split.
    + split; [exact Hok|]. split; [exists []; split; [reflexivity|intros x t []]|]. split; [reflexivity|]. split; [constructor|reflexivity].
    + intros d kn b Hv HI. exists [], kn, b. split; [destruct fuel; reflexivity|]. split; [exact HI|]. split; [constructor|]. split; [auto|].
      split; [exists []; now rewrite app_nil_r|]. auto.
  - destruct (fine_tail _ _ _ Hfine) as (Fn & Fr & Fine'). cbn [fst snd map] in *.
    assert (distinct (map fst r)) as Hdist' by (inversion Hdist; assumption).
    assert (Forall (fun m => Forall (fun n => ~ same_up_to_case m n) (map fst r)) (n :: seen)) as Hseen'.
    { constructor; [inversion Hdist; assumption|]. eapply Forall_impl; [|exact Hseen]. cbn beta. intros y Hy. exact (Forall_inv_tail Hy). }
    assert (name_entry seen n = comma :: newline :: quoted n ++ lit ": ") as En.
    { apply fresh_name. eapply Forall_impl; [|exact Hseen]. cbn beta. intros y Hy. exact (Forall_inv Hy). }
    assert ((forall a, m <> VRef a) \/ exists a, m = VRef a) as [Hm|[a ->]] by (destruct m; [left|left|left|right; eauto]; discriminate).
    + (* a value *)
      rewrite write_value_step in Hwr by exact Hm.
      destruct (write_members heap fuel r (n :: seen) s) as [[x s1]| | |] eqn:Er; cbn [obind] in Hwr; try discriminate. injection Hwr as <- <-.
      destruct (IHr (n :: seen) s x s1 bound Er Hok Fine' Hdist' Hseen') as (es & js & (W1 & W2 & W3 & W4 & W5) & Hrb).
      destruct (value_ok of_int show_double value_of show_time read_time time_of m Fr Hm) as (j & J1 & J2).
      exists ((n, member_text m) :: es), ((n, j) :: js). split.
      * split; [exact W1|]. split; [exact W2|]. split; [rewrite more_cons, En, W3; reflexivity|]. split; [constructor; [auto|exact W4]|]. cbn [map fst]. now rewrite W5.
      * intros d kn b Hv HI. destruct (Hrb d kn b) as (ml & kn' & b' & R1 & R2 & R3 & R4 & R5 & R6);
          [intros n' k' Hin; apply Hv; now right|exact HI|].
        pose proof (Hv n j (or_introl eq_refl)) as C1. exists ((n, value_stored m) :: ml), kn', b'.
        rewrite read_value_step by exact Hm. rewrite C1. cbn [obind]. rewrite J2. cbn [obind]. rewrite R1. cbn [obind].
        split; [reflexivity|]. split; [exact R2|]. split; [|auto]. constructor; [|exact R3]. split; [reflexivity|].
        destruct m; cbn; auto. exfalso. eapply Hm. reflexivity.
    + (* a reference *)
      destruct (proj1 Hfine n a (or_introl eq_refl)) as [La Ra].
      rewrite write_ref_step in Hwr. destruct (tag_for s a) as [t|] eqn:Et.
      * (* written before *)
        destruct (write_members heap fuel r (n :: seen) s) as [[x s1]| | |] eqn:Er; cbn [obind] in Hwr; try discriminate. injection Hwr as <- <-.
        destruct (IHr (n :: seen) s x s1 bound Er Hok Fine' Hdist' Hseen') as (es & js & (W1 & (new & W2 & W2') & W3 & W4 & W5) & Hrb). apply tag_for_in in Et.
        destruct (tags_number s Hok a t Et) as (i & Hi & Hti). assert (safe t) as St by (subst t; apply show_int_safe; lia).
        exists ((n, tag_entry true t ++ lit "}") :: es), ((n, JObj [(lit "$tag", JStr t)]) :: js). split.
        -- split; [exact W1|]. split; [exists new; auto|]. split; [rewrite more_cons, En, W3; reflexivity|].
           split; [constructor; [split; [reflexivity|]; split; [exact Fn|now apply ref_text]|exact W4]|]. cbn [map fst]. now rewrite W5.
        -- intros d kn b Hv HI. destruct (Hrb d kn b) as (ml & kn' & b' & R1 & R2 & R3 & R4 & R5 & R6);
             [intros n' k' Hin; apply Hv; now right|exact HI|].
           pose proof (Hv n _ (or_introl eq_refl)) as C1.
           assert (label (lit "$tag") (JObj [(lit "$tag", JStr t)]) = Ok t) as C3.
           { unfold label, has_member, member. cbn [lookup]. destruct (list_eq_dec ascii_dec (lit "$tag") (lit "$tag")); [|congruence]. cbn [obind e_string]. now rewrite safe_c_str. }
           destruct (i1 _ _ _ _ HI a _ Et Ra) as (h & Hh).
           exists ((n, VRef h) :: ml), kn', b'. rewrite read_ref_step, C1. cbn [obind]. unfold extract. rewrite C3. cbn [obind]. rewrite Hh. cbn [obind].
           rewrite R1. cbn [obind]. split; [reflexivity|]. split; [exact R2|]. split; [|auto]. constructor; [|exact R3].
           split; [reflexivity|]. cbn [snd]. exists t. split; [rewrite W2; apply in_or_app; now right|now apply R4].
      * (* new *)
        destruct fuel as [|f]; [discriminate|].
        destruct (write_members heap f (members (heap a)) [] ((a, new_tag s) :: s)) as [[y s1]| | |] eqn:Ey; cbn [obind] in Hwr; try discriminate.
        destruct (write_members heap (S f) r (n :: seen) s1) as [[x s2]| | |] eqn:Er; cbn [obind] in Hwr; try discriminate. injection Hwr as <- <-.
        assert (tags_ok ((a, new_tag s) :: s)) as Hok1 by (cbn [tags_ok]; auto).
        destruct (distinct_members a La) as [Da La'].
        destruct (IHf f ltac:(lia) _ _ _ _ _ (rank a) Ey Hok1 (fine_members a La) Da (Forall_nil _)) as (es1 & js1 & (V1 & (new1 & V2 & V2') & V3 & V4 & V5) & Hrb1).
        destruct (IHr (n :: seen) s1 x s2 bound Er V1 Fine' Hdist' Hseen') as (es & js & (W1 & (new2 & W2 & W2') & W3 & W4 & W5) & Hrb2).
        destruct (Hgood a La) as (G1 & G2 & (fs & G3 & G3') & G4 & G5).
        set (doc := JObj ((lit "$tag", JStr (new_tag s)) :: (lit "~type", JStr (otype (heap a))) :: js1)).
        destruct (object_doc (Some (new_tag s)) (otype (heap a)) js1 (new_tag_safe s) G2 ltac:(rewrite V5; exact Da) ltac:(rewrite V5; exact La')) as (T2 & T1 & Hheads & Hvy).
        cbn [app] in T2, T1, Hheads, Hvy. fold doc in T2, T1, Hheads, Hvy.
        exists ((n, tag_entry true (new_tag s) ++ type_entry false (otype (heap a)) ++ y ++ lit "}") :: es), ((n, doc) :: js). split.
        -- split; [exact W1|]. split.
           { exists (new2 ++ new1 ++ [(a, new_tag s)]). split; [rewrite W2, V2, <- !app_assoc; reflexivity|].
             intros z u Hz. apply in_app_or in Hz as [Hz|Hz]; [exact (W2' z u Hz)|]. apply in_app_or in Hz as [Hz|[Hz|[]]].
             - destruct (V2' z u Hz). split; [assumption|lia].
             - injection Hz as <- <-. auto. }
           split; [rewrite more_cons, En, W3; reflexivity|].
           split; [constructor; [split; [reflexivity|]; split; [exact Fn|]; cbn [snd]; rewrite V3; apply object_text; [apply new_tag_safe|exact G2|exact V4]|exact W4]|]. cbn [map fst]. now rewrite W5.
        -- intros d kn b Hv HI. pose proof (Hv n _ (or_introl eq_refl)) as C1.
           assert (handle_for kn (new_tag s) = None) as Hnone.
           { destruct (handle_for kn (new_tag s)) as [h|] eqn:E; [|reflexivity]. exfalso. destruct (i4 _ _ _ _ HI _ _ E) as (z & u & Z1 & Z2).
             exact (new_tag_fresh s Hok z u Z1 Z2). }
           destruct (Hrb1 doc kn b Hvy (inv_open s kn b bound a (new_tag s) HI ltac:(lia) Hnone)) as (ml & kn1 & b1 & R1 & R2 & R3 & R4 & (b1' & R5) & R6).
           destruct (new_object_inv s _ a (new_tag s) kn kn1 b b1 ml bound La V1 ltac:(exists new1; split; [exact V2|exact V2']) HI R2 Hnone R4 ltac:(rewrite V2 in R6 |- *; exact R6) R3) as [Hm2 HI2].
           set (kn2 := (new_tag s, length b1) :: kn1) in *. set (b2 := b1 ++ [Object (otype (heap a)) ml]) in *.
           destruct (Hrb2 d kn2 b2) as (ml2 & kn3 & b3 & Q1 & Q2 & Q3 & Q4 & (b3' & Q5) & Q6);
             [intros n' k' Hin; apply Hv; now right|exact HI2|].
           exists ((n, VRef (length b1)) :: ml2), kn3, b3. rewrite read_ref_step, C1. cbn [obind]. unfold extract. rewrite T2. cbn [obind].
           rewrite Hnone, T1. cbn [obind].
           replace (is_nil (otype (heap a))) with false by (destruct (otype (heap a)); [congruence|reflexivity]). rewrite G3.
           rewrite V5 in Hheads. rewrite (present_ok doc _ Hheads fs _ G3' (fun n H => H) (distinct_nodup _ Da)). cbn [obind deeper]. rewrite R1. cbn [obind].
           change ((new_tag s, length b1) :: kn1) with kn2. change (b1 ++ [Object (otype (heap a)) ml]) with b2. rewrite Q1. cbn [obind].
           split; [reflexivity|]. split; [exact Q2|]. split.
           { constructor; [|exact Q3]. split; [reflexivity|]. cbn [snd]. exists (new_tag s). split.
             - rewrite W2, V2. apply in_or_app. right. apply in_or_app. right. now left.
             - apply Q4. unfold kn2. rewrite handle_cons. now rewrite (proj2 (ci_eqb_iff _ _) (same_refl (new_tag s))). }
           split; [intros t h Hh; apply Q4, Hm2, R4, Hh|]. split; [exists (b1' ++ [Object (otype (heap a)) ml] ++ b3'); rewrite Q5; unfold b2; rewrite R5, <- !app_assoc; reflexivity|].
           intros t h Hh. apply Q6 in Hh as [Hh|(z & u & Z1 & Z2 & Z3)].
           { unfold kn2 in Hh. rewrite handle_cons in Hh. destruct (ci_eqb (new_tag s) t) eqn:E.
             - right. exists a, (new_tag s). apply ci_eqb_iff in E. split; [rewrite W2, V2; apply in_or_app; right; apply in_or_app; right; now left|]. split; [|exact E].
               intros G. exact (new_tag_fresh s Hok _ _ G (same_refl _)).
             - apply R6 in Hh as [Hh|(z & u & Z1 & Z2 & Z3)]; [now left|]. right. exists z, u. split; [rewrite W2; apply in_or_app; now right|].
               split; [|exact Z3]. intros G. apply Z2. now right. }
           { right. exists z, u. split; [exact Z1|]. split; [|exact Z3]. intros G. apply Z2. rewrite V2. apply in_or_app. right. now right. }
Qed.

(** Enough fuel: the rank of the object written. *)
Lemma write_total fuel : forall r seen s, (forall n b, In (n, VRef b) r -> live b /\ (rank b < fuel)%nat) ->
  exists l s', write_members heap fuel r seen s = Ok (l, s').
Proof.
  induction fuel as [fuel IHf] using (well_founded_induction Wf_nat.lt_wf).
  induction r as [|[n m] r IHr]; intros seen s Hr; [exists [], s; destruct fuel; reflexivity|].
  assert (forall n0 b, In (n0, VRef b) r -> live b /\ (rank b < fuel)%nat) as Hr' by (intros n0 b Hb; apply (Hr n0); now right).
  assert ((forall a, m <> VRef a) \/ exists a, m = VRef a) as [Hm|[a ->]] by (destruct m; [left|left|left|right; eauto]; discriminate).
  - rewrite write_value_step by exact Hm. destruct (IHr (n :: seen) s Hr') as (l & s' & ->). cbn [obind]. eauto.
  - rewrite write_ref_step. destruct (tag_for s a) as [t|].
    + destruct (IHr (n :: seen) s Hr') as (l & s' & ->). cbn [obind]. eauto.
    + destruct (Hr n a (or_introl eq_refl)) as [La Ra]. destruct fuel as [|f]; [lia|].
      destruct (IHf f ltac:(lia) (members (heap a)) [] ((a, new_tag s) :: s)) as (y & s1 & ->).
      { intros n0 b Hb. destruct (Hdown a n0 b La Hb). split; [assumption|lia]. }
      cbn [obind]. destruct (IHr (n :: seen) s1 Hr') as (l & s' & ->). cbn [obind]. eauto.
Qed.
End Sim.

Section Copy.
Context {N T : Type}.
Variables (of_int : Z -> N) (show_double : N -> str) (value_of : str -> N) (show_time : T -> str) (read_time : str -> outcome T) (time_of : N -> outcome T).
Variable heap : nat -> object N T.
Variable schema : str -> option (list field).
Lemma json_copy rank root fuel x :
  (forall a, reachable heap root a -> archivable show_double show_time read_time schema (heap a)) -> acyclic heap root rank ->
  write_string of_int show_double show_time heap fuel root = Ok x ->
  exists h b, read_string value_of read_time time_of schema fuel x = Ok (h, b) /\ is_copy show_double value_of heap root h b.
Proof.
  intros Hgood Hac Ew0. unfold write_string in Ew0. destruct (write_members of_int show_double show_time heap fuel (members (heap root)) [] []) as [[y s]| | |] eqn:Ew; cbn [obind] in Ew0; try discriminate.
  assert (x = type_entry true (otype (heap root)) ++ y ++ lit "}") as -> by congruence. clear Ew0. set (live := reachable heap root).
  assert (forall a n b, live a -> In (n, VRef b) (members (heap a)) -> live b /\ (rank b < rank a)%nat) as Hdown.
  { intros a n b La Hb. split; [exact (reachable_ref _ _ heap root a n b La Hb)|exact (Hac a n b La Hb)]. }
  assert (live root) as Lr by constructor.
  destruct (distinct_members show_double show_time read_time heap schema live Hgood root Lr) as [Da La'].
  destruct (sim of_int show_double value_of show_time read_time time_of heap schema rank live Hgood Hdown fuel _ _ _ _ _ (rank root) Ew Logic.I
    (fine_members show_double show_time read_time heap schema rank live Hgood Hdown root Lr) Da (Forall_nil _))
    as (es & js & (W1 & (new & W2 & W2') & W3 & W4 & W5) & Hrb). subst s y.
  destruct (Hgood root Lr) as (G1 & G2 & (fs & G3 & G3') & G4 & G5).
  destruct (object_doc None (otype (heap root)) js Logic.I G2 ltac:(rewrite W5; exact Da) ltac:(rewrite W5; exact La')) as (T2 & T1 & Hheads & Hv).
  cbn [app] in T2, T1, Hheads, Hv. set (d := JObj ((lit "~type", JStr (otype (heap root))) :: js)) in *.
  assert (parse (type_entry true (otype (heap root)) ++ more es ++ lit "}") = Some d) as Hp by (apply reads_parse, root_text; assumption).
  destruct (Hrb d [] [] Hv) as (ml & kn & b & R1 & R2 & R3 & R4 & R5 & R6).
  { split; [intros y t []|intros y t h []|intros y t z u h []|intros t h; discriminate]. }
  rewrite W5 in Hheads.
  exists (length b), (b ++ [Object (otype (heap root)) ml]). split.
  - unfold read_string. rewrite Hp. cbv zeta. unfold extract. rewrite T2. cbn [obind handle_for]. rewrite T1. cbn [obind].
    replace (is_nil (otype (heap root))) with false by (destruct (otype (heap root)); [congruence|reflexivity]). rewrite G3.
    rewrite (present_ok d _ Hheads fs _ G3' (fun n H => H) (distinct_nodup _ Da)). cbn [obind]. rewrite R1. reflexivity.
  - exists (fun a k => (a = root /\ k = length b) \/ cp (new ++ []) kn a k).
    assert (forall a t, In (a, t) (new ++ []) -> a <> root) as Hnr.
    { intros a t Hin ->. rewrite app_nil_r in Hin. apply W2' in Hin as [_ Hin]. lia. }
    assert (forall a k, cp (new ++ []) kn a k -> (k < length b)%nat) as Hlt.
    { intros a k (t & C1 & C2). destruct (i2 _ _ _ _ _ _ _ _ R2 a t k C1 C2) as (o & O1 & _). apply nth_error_Some. congruence. }
    split; [left; auto|]. split; [|split].
    + intros a k [[-> ->]|Hc].
      * exists (Object (otype (heap root)) ml). rewrite nth_error_app2, Nat.sub_diag by lia. split; [reflexivity|]. split; [reflexivity|].
        cbn [members]. eapply copies_mono; [|exact R3]. auto.
      * pose proof (Hlt a k Hc). destruct Hc as (t & C1 & C2). destruct (i2 _ _ _ _ _ _ _ _ R2 a t k C1 C2) as (o & O1 & O2 & O3).
        exists o. rewrite nth_error_app1 by assumption. split; [exact O1|]. split; [exact O2|]. eapply copies_mono; [|exact O3]. auto.
    + intros a k k' [[-> ->]|Hc] [[E ->]|Hc']; [reflexivity| | |].
      * destruct Hc' as (t & C1 & _). exfalso. exact (Hnr _ _ C1 eq_refl).
      * destruct Hc as (t & C1 & _). exfalso. exact (Hnr _ _ C1 E).
      * destruct Hc as (t & C1 & C2), Hc' as (t' & C1' & C2'). rewrite (tags_fun _ W1 a t t' C1 C1') in C2. congruence.
    + intros a a' k [[-> ->]|Hc] [[-> Ek]|Hc'].
      * reflexivity.
      * pose proof (Hlt _ _ Hc'). lia.
      * pose proof (Hlt _ _ Hc). lia.
      * destruct Hc as (t & C1 & C2), Hc' as (t' & C1' & C2'). exact (i3 _ _ _ _ _ _ _ _ R2 a t a' t' k C1 C1' C2 C2').
Qed.
End Copy.

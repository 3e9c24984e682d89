(** C29: dictionaries keep one entry per key, find it by any spelling of the key, and survive the trip through text. *)
From Coq Require Import String Ascii ZArith List Bool Lia DecimalString.
From Verif Require Import Base DateModel DateSpec DateProofs StringModel StringSpec StringProofs OMap DictModel DictSpec DictProofs.
Import ListNotations.
Open Scope Z_scope.

(** A small double type for the examples: whole numbers, read from their decimal text. *)
Definition ex_to_double (s : str) : option Z :=
  match NilZero.int_of_string (string_of_list_ascii s) with Some i => Some (Z.of_int i) | None => None end.
Definition ex_as_int (z : Z) : outcome (option Z) := if Z.abs z <? 2147483647 then Ok (Some z) else Throw.
Notation ex_show := show_int.
Definition ex_time (_ : unit) : str := lit "2020-01-01 00:00:00".
Definition ex_read_time (_ : str) : outcome unit := Ok tt.
Definition ex_insert (d : dict Z unit) (k : string) (v : cell Z unit) : outcome (dict Z unit) := insert d (lit k) v.
Definition ex_dict : outcome (dict Z unit) :=
  do a <- ex_insert [] "Start Date" (CDate 18322); do b <- ex_insert a "ccy" (CStr (lit "USD"));
  ex_insert b "n_paths" (CNum 1024).
Definition ex_list : list (str * cell Z unit) :=
  [(lit "n_paths", CNum 1024); (lit "ccy", CStr (lit "USD")); (lit "Start Date", CDate 18322)].
Definition ex_map : dict Z unit := [(lit "CCY", CStr (lit "USD")); (lit "NPATHS", CNum 1024); (lit "STARTDATE", CDate 18322)].
Lemma ex_stored : ex_dict = Ok ex_map /\ stored ex_list ex_map.
Proof.
  split; [vm_compute; reflexivity|]. unfold ex_list.
  apply stored_more with (d := [(lit "CCY", CStr (lit "USD")); (lit "STARTDATE", CDate 18322)]); [|vm_compute; reflexivity].
  apply stored_more with (d := [(lit "STARTDATE", CDate 18322)]); [|vm_compute; reflexivity].
  apply stored_more with (d := []); [apply stored_none|vm_compute; reflexivity].
Qed.

(** Lookup: a key finds the value stored under the same key, however spelled; otherwise nothing; storing under a key already
    there is refused. *)
Theorem C29_lookup : forall N T (l : list (str * cell N T)) d, stored l d -> (forall k v, In (k, v) l -> ascii_only k) ->
  forall k, ascii_only k ->
  (forall k' v, In (k', v) l -> same_key k' k ->
     (forall o, at_key d k o = Ok v) /\ has d k = Ok true /\ forall w, insert d k w = Throw) /\
  ((forall k' v, In (k', v) l -> ~ same_key k' k) ->
     at_key d k false = Throw /\ at_key d k true = Ok CEmpty /\ has d k = Ok false /\
     forall w, exists d', insert d k w = Ok d').
Proof.
  intros N T l d Hst Ha k Hk. destruct (lookup N T l d Hst Ha k Hk) as (x & Hx & Hf). split.
  - intros k' v Hin Hs. assert (mfind ci_compare d x = Some v) as Hm by (apply Hf; eauto).
    unfold at_key, has, insert. rewrite Hx. cbn [obind]. rewrite Hm. auto.
  - intros Hno. assert (mfind ci_compare d x = None) as Hm.
    { destruct (mfind ci_compare d x) as [v|] eqn:E; [|reflexivity]. destruct (proj1 (Hf v) eq_refl) as (k' & H1 & H2). exfalso. eapply Hno; eauto. }
    unfold at_key, has, insert. rewrite Hx. cbn [obind]. rewrite Hm. repeat split; auto. intros w. eauto.
Qed.
Print Assumptions C29_lookup.
Example C29_lookup_example : exists d, ex_dict = Ok d /\ stored ex_list d /\
  at_key d (lit "START_DATE") false = Ok (CDate 18322) /\ has d (lit "npath") = Ok false /\ insert d (lit "C C Y") CEmpty = Throw.
Proof. exists ex_map. split; [apply ex_stored|]. split; [apply ex_stored|]. vm_compute. repeat split. Qed.

(** Text round trip: reading the text of a dictionary gives the dictionary back, for every dictionary whose keys and values
    have a text form of their own. *)
Theorem C29_round_trip : forall N T (to_double : str -> option N) as_int show_double (show_time : T -> str) read_time l d,
  stored l d -> (forall k v, In (k, v) l -> ascii_only k) ->
  (forall k v, In (k, v) l -> portable_key k /\
     portable (coerce_to_string as_int show_double show_time) (read_value to_double read_time) v) ->
  exists text, write as_int show_double show_time d = Ok text /\ read to_double read_time text = Ok d.
Proof. exact round_trip. Qed.
Print Assumptions C29_round_trip.

(** The text itself: the entries in order of the keys, separated by semicolons. *)
Theorem C29_text : forall N T as_int show_double (show_time : T -> str) (d : dict N T) (texts : list str),
  Forall2 (fun p t => exists u, coerce_to_string as_int show_double show_time (snd p) = Ok u /\ t = fst p ++ ["="%char] ++ u) d texts ->
  write as_int show_double show_time d = Ok (join ";" texts).
Proof.
  intros N T ai sd st d texts H. unfold write.
  enough (forall done, Forall (fun e : str => e <> []) done ->
    write_from ai sd st (join ";" done) d = Ok (join ";" (done ++ texts))) as G by exact (G [] (Forall_nil _)).
  induction H as [|[k v] e d es (u & Hu & ->) Hd IH]; intros done Hdone; cbn [write_from fst snd] in *.
  - now rewrite app_nil_r.
  - rewrite Hu. cbn [obind]. specialize (IH (done ++ [k ++ ["="%char] ++ u])). rewrite <- app_assoc in IH. cbn [app] in IH. cbn [app].
    etransitivity; [|apply IH; apply Forall_app; split; [assumption|repeat constructor; destruct k; discriminate]]. f_equal.
    destruct done as [|a done]; [reflexivity|]. rewrite join_snoc by discriminate.
    pose proof (join_nonempty ";" (a :: done) Hdone ltac:(discriminate)) as Hj.
    destruct (join ";" (a :: done)) as [|c j]; [congruence|]. rewrite <- app_assoc. reflexivity.
Qed.
Print Assumptions C29_text.

(** Which values have a text form of their own: text that looks like nothing else, dates, whole numbers of 32 bits. *)
Theorem C29_portable_text : forall N T (to_double : str -> option N) as_int show_double (show_time : T -> str) read_time s,
  s <> [] -> ~ In ";"%char s -> ~ In "="%char s -> to_double s = None ->
  is_date_string (string_of_list_ascii s) = false -> is_date_time s = false ->
  portable (coerce_to_string as_int show_double show_time) (read_value to_double read_time) (CStr s).
Proof.
  intros N T td ai sd st rt s H1 H2 H3 H4 H5 H6. exists s. repeat split; auto. unfold read_value.
  rewrite H4. unfold is_date. rewrite H5, H6. destruct s; [congruence|reflexivity].
Qed.
Print Assumptions C29_portable_text.
Theorem C29_portable_date : forall N T (to_double : str -> option N) as_int show_double (show_time : T -> str) read_time d,
  1 <= d < 65536 -> in_bad_window (ymd d) = false -> to_double (list_ascii_of_string (to_string d)) = None ->
  portable (coerce_to_string as_int show_double show_time) (read_value to_double read_time) (CDate d).
Proof.
  intros N T td ai sd st rt d Hd Hw Hn. destruct (string_round_trip d Hd) as [R1 R2]. rewrite Hw in R1.
  destruct (date_plain _ R2) as [P1 P2]. exists (list_ascii_of_string (to_string d)).
  destruct (plain_no _ P1). repeat split; auto.
  - destruct (to_string d); [congruence|discriminate].
  - unfold read_value, is_date. rewrite Hn, string_of_list_ascii_of_string, R2, R1. reflexivity.
Qed.
Print Assumptions C29_portable_date.
Theorem C29_portable_int : forall N T (to_double : str -> option N) as_int show_double (show_time : T -> str) read_time x z,
  as_int x = Ok (Some z) -> to_double (show_int z) = Some x ->
  portable (coerce_to_string as_int show_double show_time) (read_value to_double read_time) (CNum x).
Proof.
  intros N T td ai sd st rt x z Hx Hr. destruct (show_int_plain z) as [P1 P2]. destruct (plain_no _ P1).
  exists (show_int z). cbn [coerce_to_string]. rewrite Hx. cbn [obind]. repeat split; auto. unfold read_value. now rewrite Hr.
Qed.
Print Assumptions C29_portable_int.
Example C29_round_trip_example : exists d, ex_dict = Ok d /\ stored ex_list d /\
  (forall k v, In (k, v) ex_list -> portable_key k /\
     portable (coerce_to_string ex_as_int ex_show ex_time) (read_value ex_to_double ex_read_time) v) /\
  write ex_as_int ex_show ex_time d = Ok (lit "CCY=USD;NPATHS=1024;STARTDATE=2020-02-29") /\
  read ex_to_double ex_read_time (lit "CCY=USD;NPATHS=1024;STARTDATE=2020-02-29") = Ok d.
Proof.
  exists ex_map. split; [apply ex_stored|]. split; [apply ex_stored|]. split; [|vm_compute; split; reflexivity].
  intros k v [H|[H|[H|[]]]]; injection H as <- <-; split.
  - exists (lit "npaths"). repeat split; try discriminate; try (vm_compute; intros G; decompose [or] G; (discriminate || assumption)).
    repeat (apply strip_nil || (apply strip_skip; [unfold ignorable; auto; fail|]) || (apply strip_keep; [unfold ignorable; intuition discriminate|])).
  - apply C29_portable_int with (z := 1024); vm_compute; reflexivity.
  - exists (lit "ccy"). repeat split; try discriminate; try (vm_compute; intros G; decompose [or] G; (discriminate || assumption)).
    repeat (apply strip_nil || (apply strip_skip; [unfold ignorable; auto; fail|]) || (apply strip_keep; [unfold ignorable; intuition discriminate|])).
  - apply C29_portable_text; vm_compute; try reflexivity; try discriminate; intros G; decompose [or] G; (discriminate || assumption).
  - exists (lit "StartDate"). repeat split; try discriminate; try (vm_compute; intros G; decompose [or] G; (discriminate || assumption)).
    repeat (apply strip_nil || (apply strip_skip; [unfold ignorable; auto; fail|]) || (apply strip_keep; [unfold ignorable; intuition discriminate|])).
  - apply C29_portable_date; vm_compute; auto. split; [discriminate|reflexivity].
Qed.

(** Not every dictionary survives.  A boolean comes back as text, although Cell::ConvertString would read it as a boolean; an
    empty cell or an empty key makes the text unreadable; a text that looks like a number comes back as one; a value with a
    separator makes it unreadable; a whole number of 32 bits or more cannot be written at all; a date in the bad window of C01
    comes back a day early. *)
Definition trip (k : string) (v : cell Z unit) : outcome (dict Z unit) :=
  do d <- ex_insert [] k v; do t <- write ex_as_int ex_show ex_time d; read ex_to_double ex_read_time t.
Theorem C29_values_refuted :
  trip "K" (CBool true) = Ok [(lit "K", CStr (lit "true"))] /\
  convert_string ex_to_double ex_read_time (lit "true") = Ok (CBool true) /\
  trip "K" CEmpty = Throw /\ trip " " (CNum 1) = Throw /\
  trip "K" (CStr (lit "12")) = Ok [(lit "K", CNum 12)] /\
  trip "K" (CStr (lit "a;b")) = Throw /\ trip "K" (CStr (lit "a=b")) = Throw /\
  trip "K" (CNum 3000000000) = Throw /\
  trip "K" (CDate 24837) = Ok [(lit "K", CDate 24836)].
Proof. vm_compute. repeat split. Qed.
Print Assumptions C29_values_refuted.
(** Other numbers are printed with six decimals: two that print alike cannot both come back. *)
Theorem C29_six_decimals_refuted : forall N T (to_double : str -> option N) as_int show_double (show_time : T -> str) read_time x y,
  x <> y -> as_int x = Ok None -> as_int y = Ok None -> show_double x = show_double y ->
  ~ (portable (coerce_to_string as_int show_double show_time) (read_value to_double read_time) (CNum x) /\
     portable (coerce_to_string as_int show_double show_time) (read_value to_double read_time) (CNum y)).
Proof.
  intros N T td ai sd st rt x y Hxy Hx Hy E [(t & H1 & _ & _ & _ & H2) (u & H3 & _ & _ & _ & H4)].
  cbn [coerce_to_string] in H1, H3. rewrite Hx in H1. rewrite Hy in H3. cbn [obind] in *. congruence.
Qed.
Print Assumptions C29_six_decimals_refuted.

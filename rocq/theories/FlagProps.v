(** C77: flags and whole numbers in text, and what cells convert to. *)
From Coq Require Import String Ascii ZArith List Bool Lia.
From Verif Require Import Base DateModel StringModel StringSpec StringProofs DictModel ClockModel FlagModel FlagSpec FlagProofs.
Import ListNotations.
Open Scope Z_scope.

(** A text is true when it says TRUE, T, Y or 1 in any case, false when it says FALSE, F, N or 0, and is refused otherwise. *)
Theorem C77_flag : forall s, ascii_only s ->
  (to_bool s = Ok true <-> says_true s) /\ (to_bool s = Ok false <-> says_false s) /\
  (~ says_true s -> ~ says_false s -> to_bool s = Throw).
Proof.
  intros s A. destruct (to_bool_cases s A) as (o & -> & Nu & Nf & H). split; [apply (H true)|]. split; [apply (H false)|].
  intros T F. destruct o as [b| | |]; [|reflexivity|congruence|congruence]. exfalso. pose proof (proj1 (H b) eq_refl) as Q. destruct b; auto.
Qed.
Print Assumptions C77_flag.
Example C77_flag_witness : to_bool (lit "tRue") = Ok true /\ to_bool (lit "n") = Ok false /\ to_bool (lit "yes") = Throw.
Proof. repeat split. Qed.

(** A vector of flags stored in a cell comes back, whatever its length; a cell with one flag is read as the vector of it. *)
Theorem C77_vector : forall {N T} (l : list bool), cell_bool_vector (from_bool_vector (N:=N) (T:=T) l) = Ok l /\
  (forall b, l = [b] -> cell_bool_vector (N:=N) (T:=T) (CBool b) = Ok l).
Proof.
  intros N T l. split; [|intros b ->; reflexivity]. unfold from_bool_vector, cell_bool_vector, to_bool_vector.
  rewrite cut_comma by (induction l as [|[] r IH]; cbn; intuition discriminate).
  unfold test_true, test_false. rewrite (letters_not_true l (lit "TRUE") "U"%char); [|cbn; intuition discriminate|cbn; tauto|apply capital_true].
  cbn [obind]. rewrite (letters_not_true l (lit "FALSE") "A"%char); [|cbn; intuition discriminate|cbn; tauto|apply capital_false].
  cbn [obind]. apply mapm_ok. induction l as [|[] r IH]; cbn [map]; constructor; auto.
Qed.
Print Assumptions C77_vector.
Example C77_vector_witness : from_bool_vector (N:=Z) (T:=Z) [true; true; false] = CStr (lit "TTF") /\ cell_bool_vector (N:=Z) (T:=Z) (CStr (lit "TTF")) = Ok [true; true; false].
Proof. split; reflexivity. Qed.

(** A list of flags set apart by commas is read flag by flag; so is one flag alone. *)
Theorem C77_list : forall ws bs, ws <> [] -> Forall2 says ws bs -> to_bool_vector (join "," ws) = Ok bs.
Proof.
  intros ws bs Ne F. destruct ws as [|a [|b r]]; [congruence| |].
  - inversion F as [|? ? ? ? H F']; subst. inversion F'; subst. apply vector_one, H.
  - unfold to_bool_vector. pose proof (join_comma a b r) as J. destruct (snd (cut "," (join "," (a :: b :: r)))) as [x|]; [|congruence].
    rewrite split_join; [|discriminate|].
    + apply mapm_ok. clear - F. induction F as [|s v ws bs H _ IH]; constructor; [|exact IH].
      destruct (to_bool_cases s (says_ascii s v H)) as (o & -> & _ & _ & Q). apply Q, H.
    + clear - F. induction F as [|s v ws bs H _ IH]; constructor; [exact (says_no_comma s v H)|exact IH].
Qed.
Print Assumptions C77_list.
Example C77_list_witness : Forall2 says [lit "true"; lit "0"; lit "Y"] [true; false; true] /\ to_bool_vector (lit "true,0,Y") = Ok [true; false; true].
Proof.
  split; [|reflexivity]. repeat constructor; [exists (lit "TRUE")|exists (lit "0")|exists (lit "Y")]; (split; [cbn; tauto|]); repeat constructor; unfold same_letter; cbn; lia.
Qed.

(** A whole number written as text is read back. *)
Theorem C77_integer : forall z, -2147483648 <= z <= 2147483647 -> stoi_text (string_of_list_ascii (show_int z)) = Ok z.
Proof. intros z H. apply stoi_show. unfold int_range. apply andb_true_intro. rewrite !Z.leb_le. lia. Qed.
Print Assumptions C77_integer.
Example C77_integer_witness : show_int (-120) = lit "-120" /\ stoi_text "-120" = Ok (-120).
Proof. split; reflexivity. Qed.

(** A cell has one kind, gives back the value it was made from, stands for 1 or 0 when it is a flag, and refuses the rest; an
    empty cell or text stands for the value provided. *)
Theorem C77_cells : forall {N T} (as_int : N -> outcome Z) (equals_int : N -> Z -> bool) (of_int : Z -> N) (zero one : N) (show_double : N -> str) (show_time : T -> str),
  (forall z, -2147483648 <= z <= 2147483647 -> as_int (of_int z) = Ok z /\ equals_int (of_int z) z = true) ->
  (forall x, cell_to_double N T zero one (CNum x) = Ok x) /\
  (forall z, -2147483648 <= z <= 2147483647 -> cell_to_int N T as_int equals_int (CNum (of_int z)) = Ok z /\ is_int N T as_int equals_int (CNum (of_int z)) = Ok true /\
     cell_to_string N T as_int equals_int show_double show_time (CNum (of_int z)) = Ok (show_int z)) /\
  (forall b, cell_to_bool N T (CBool b) = Ok b /\ cell_to_double N T zero one (CBool b) = Ok (if b then one else zero) /\ cell_to_int N T as_int equals_int (CBool b) = Ok (if b then 1 else 0)) /\
  (forall b, exists s, cell_to_string N T as_int equals_int show_double show_time (CBool b) = Ok s /\ to_bool s = Ok b) /\
  (forall d, cell_to_date N T (CDate d) = Ok d) /\ (forall t, cell_to_time N T (CTime t) = Ok t) /\
  (forall s, cell_to_string N T as_int equals_int show_double show_time (CStr s) = Ok s) /\
  (forall c, (cell_to_double N T zero one c = Throw <-> is_double N T c = false /\ is_bool N T c = false) /\
     (cell_to_bool N T c = Throw <-> is_bool N T c = false) /\ (cell_to_date N T c = Throw <-> is_date_cell N T c = false) /\ (cell_to_time N T c = Throw <-> is_time_cell N T c = false)) /\
  (forall A (read : cell N T -> outcome A) v, or_empty N T read v CEmpty = Ok v /\ or_empty N T read v (CStr []) = Ok v /\
     forall c, c <> CEmpty -> c <> CStr [] -> or_empty N T read v c = read c).
Proof.
  intros N T as_int equals_int of_int zero one show_double show_time H. split; [reflexivity|]. split.
  { intros z Hz. destruct (H z Hz) as [E Q]. cbn [cell_to_int is_int cell_to_string]. rewrite E. cbn [obind]. rewrite Q. auto. }
  split; [auto|]. split. { intros [|]; eexists; (split; [reflexivity|]); reflexivity. }
  split; [reflexivity|]. split; [reflexivity|]. split; [reflexivity|]. split.
  - intro c. destruct c; cbn; repeat split; try discriminate; try tauto; intros [? ?]; discriminate.
  - intros A read v. split; [reflexivity|]. split; [reflexivity|]. intros c N1 N2. unfold or_empty. destruct c as [| | | | |[|]]; cbn; try reflexivity; congruence.
Qed.
Print Assumptions C77_cells.
Example C77_cells_witness : forall z : Z, -2147483648 <= z <= 2147483647 -> (fun x : Z => Ok x) ((fun x : Z => x) z) = Ok z /\ Z.eqb ((fun x : Z => x) z) z = true.
Proof. intros z _. split; [reflexivity|apply Z.eqb_refl]. Qed.
(** An enumeration stored in a cell comes back when its text is read back. *)
Theorem C77_enum : forall {N T E} as_int equals_int show_double show_time (show : E -> str) (parse : str -> outcome E) e,
  parse (show e) = Ok e -> to_enum N T as_int equals_int show_double show_time parse (from_enum N T show e) = Ok e.
Proof. intros. cbn. assumption. Qed.
Print Assumptions C77_enum.
Example C77_enum_witness : to_bool ((fun b : bool => if b then lit "Y" else lit "N") true) = Ok true.
Proof. reflexivity. Qed.

(** An empty flag after the last comma is not noticed, though one before or between is refused. *)
Theorem C77_trailing_refuted : forall s b, says s b -> to_bool_vector (s ++ lit ",") = Ok [b] /\ to_bool_vector (lit "," ++ s) = Throw.
Proof.
  intros s b H. destruct (says_no_comma s b H) as [Ne Nc]. destruct (to_bool_cases s (says_ascii s b H)) as (o & Eo & _ & _ & Q). pose proof (proj2 (Q b) H) as Eb.
  split.
  - change (lit ",") with [","%char]. unfold to_bool_vector. rewrite cut_app by exact Nc. cbn [snd]. rewrite split_step by (destruct s; discriminate). rewrite cut_app by exact Nc. cbv zeta.
    destruct s as [|c r]; [congruence|]. change (split [] "," true) with (@nil str). cbn [mapm]. rewrite Eo, Eb. reflexivity.
  - unfold to_bool_vector. cbn [lit list_ascii_of_string app cut]. change (Ascii.eqb "," ",") with true. cbv iota. cbn [snd].
    rewrite split_step by discriminate. cbn [cut]. change (Ascii.eqb "," ",") with true. cbv iota zeta. reflexivity.
Qed.
Print Assumptions C77_trailing_refuted.
Example C77_trailing_refuted_witness : says (lit "F") false.
Proof. exists (lit "F"). split; [cbn; tauto|]. repeat constructor. Qed.
(** A text of the length of TRUE or FALSE that has a character outside ASCII in the place tested is not refused but undefined. *)
Theorem C77_signed_refuted : exists s, ~ says_true s /\ ~ says_false s /\ to_bool s = UB.
Proof.
  exists [ascii_of_nat 233; "t"%char; "e"%char; "s"%char]. repeat split.
  - intros (w & [<-|[<-|[<-|[<-|[]]]]] & H); pose proof (same_length _ _ H) as L; try discriminate. inversion H as [|? ? ? ? Hc _]; subst. vm_compute in Hc. intuition (try discriminate).
  - intros (w & [<-|[<-|[<-|[<-|[]]]]] & H); pose proof (same_length _ _ H) as L; discriminate.
Qed.
Print Assumptions C77_signed_refuted.
(** An integer read from text may be followed by anything. *)
Theorem C77_junk_refuted : stoi_text "12abc" = Ok 12 /\ stoi_text "3.9" = Ok 3.
Proof. split; reflexivity. Qed.
Print Assumptions C77_junk_refuted.

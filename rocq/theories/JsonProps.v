(** C71: objects archived as JSON text. *)
From Coq Require Import String Ascii ZArith List Bool Lia.
From Verif Require Import Base DateModel DateSpec StringModel StringSpec DictModel SplatModel SplatFileModel JsonModel JsonSpec JsonText JsonProofs.
Import ListNotations.
Open Scope Z_scope.

(** Writing an object graph without cycles never fails, and building from the text gives a copy of the graph: one copy of each object, however often
    and from wherever it is referred to, with the members its class asks for and every value as its text says. *)
Theorem C71_copy {N T} (of_int : Z -> N) (show_double : N -> str) (value_of : str -> N) (show_time : T -> str) (read_time : str -> outcome T) (time_of : N -> outcome T)
    (heap : nat -> object N T) (schema : str -> option (list field)) (rank : nat -> nat) (root fuel : nat) :
  (forall a, reachable heap root a -> archivable show_double show_time read_time schema (heap a)) -> acyclic heap root rank -> (rank root <= fuel)%nat ->
  exists text h b, write_string of_int show_double show_time heap fuel root = Ok text /\
    read_string value_of read_time time_of schema fuel text = Ok (h, b) /\ is_copy show_double value_of heap root h b.
Proof.
  intros Hg Ha Hf.
  assert (forall a n b, reachable heap root a -> In (n, VRef b) (members (heap a)) -> reachable heap root b /\ (rank b < rank a)%nat) as Hdown.
  { intros a n b La Hb. split; [exact (reachable_ref _ _ heap root a n b La Hb)|exact (Ha a n b La Hb)]. }
  destruct (write_total of_int show_double value_of show_time read_time time_of heap schema rank (reachable heap root) Hg Hdown fuel (members (heap root)) [] []) as (y & s & E).
  { intros n b Hb. destruct (Hdown root n b (reachable_root _ _ heap root) Hb). split; [assumption|lia]. }
  assert (exists text, write_string of_int show_double show_time heap fuel root = Ok text) as (text & Et) by (unfold write_string; rewrite E; cbn [obind]; eauto).
  destruct (json_copy of_int show_double value_of show_time read_time time_of heap schema rank root fuel text Hg Ha Et) as (h & b & H1 & H2). eauto 6.
Qed.
Print Assumptions C71_copy.
(** If the printed text of every number in the graph reads back as that number, and no cell is empty, the copy is exact. *)
Theorem C71_exact_values {N T} (show_double : N -> str) (value_of : str -> N) (a : atom N T) :
  (forall x, a = ANum x \/ a = ACell (CNum x) -> value_of (show_double x) = x) -> a <> ACell CEmpty -> as_stored show_double value_of a = a.
Proof.
  intros H Hne. destruct a as [x| | | | | |c]; try reflexivity; [cbn; rewrite H; auto|]. destruct c; try reflexivity; [congruence|cbn; rewrite H; auto].
Qed.
Print Assumptions C71_exact_values.
(** A text that is not a JSON object is not reported: reading it is undefined. *)
Theorem C71_not_an_object {N T} (value_of : str -> N) (read_time : str -> outcome T) (time_of : N -> outcome T) schema fuel s :
  (forall l, parse s <> Some (JObj l)) -> read_string value_of read_time time_of schema fuel s = UB.
Proof.
  intros H. unfold read_string, extract, label. destruct (parse s) as [d|]; [|reflexivity]. destruct d; try reflexivity. exfalso. eapply H. reflexivity.
Qed.
Print Assumptions C71_not_an_object.
(** A required member that is missing is not reported either. *)
Theorem C71_missing_member {N T} (value_of : str -> N) (read_time : str -> outcome T) (time_of : N -> outcome T) schema fuel s l ty n k fs :
  parse s = Some (JObj l) -> lookup l (lit "$tag") = None -> lookup l (lit "~type") = Some (JStr ty) -> c_str ty <> [] ->
  schema (c_str ty) = Some ((n, Always, k) :: fs) -> (forall m p q, In (m, p, q) fs -> p = Always) -> lookup l n = None ->
  read_string value_of read_time time_of schema fuel s = UB.
Proof.
  intros Hp Htag Hty Hne Hs Hfs Hn. unfold read_string. rewrite Hp. cbv zeta. unfold extract, label, has_member, member. rewrite Htag. cbn [obind handle_for]. rewrite Hty. cbn [obind e_string].
  replace (is_nil (c_str ty)) with false by (destruct (c_str ty); [congruence|reflexivity]). rewrite Hs.
  assert (exists q, present (JObj l) ((n, Always, k) :: fs) = Ok ((n, k) :: q)) as (q & ->).
  { cbn [present]. assert (exists q, present (JObj l) fs = Ok q) as (q & ->); [|cbn [obind]; eauto]. clear -Hfs. induction fs as [|[[m p] k] fs IH]; [exists []; reflexivity|].
    rewrite (Hfs m p k) by now left. cbn [present]. destruct IH as (q & ->); [intros; eapply Hfs; right; eassumption|]. cbn [obind]. eauto. }
  cbn [obind]. destruct fuel, k; cbn [read_members member]; rewrite Hn; reflexivity.
Qed.
Print Assumptions C71_missing_member.

(** * Cases.  Numbers are counts of 10^-9, printed to six decimals as std::to_string does (ties up); there is one time. *)
Fixpoint pad (k : nat) (z : Z) : str := match k with O => [] | S j => pad j (z / 10) ++ show_int (z mod 10) end.
Definition show_nano (z : Z) : str := let a := (Z.abs z + 500) / 1000 in (if z <? 0 then lit "-" else []) ++ show_int (a / 1000000) ++ "."%char :: pad 6 (a mod 1000000).
Definition nano (t : str) : Z :=
  let body := match t with c :: r => if Ascii.eqb c "-" then r else t | [] => [] end in
  let v := fold_left (fun a c => if SplatFileModel.digit c then 10 * a + Z.of_nat (nat_of_ascii c - 48) else a) body 0 in
  1000 * (match t with c :: _ => if Ascii.eqb c "-" then - v else v | [] => v end).
Definition of_units (z : Z) : Z := 1000000000 * z.
Definition show_unit (_ : unit) : str := lit "2020-01-01 00:00:00".
Definition read_unit (_ : str) : outcome unit := Ok tt.
Definition no_time (_ : Z) : outcome unit := Throw.
Notation write := (write_string of_units show_nano show_unit).
Notation read := (read_string nano read_unit no_time).
(** the readers of some classes of the library (dal/auto/MG_Bag_Read.inc, MG_DiscountPWLF_v1_Read.inc, MG_PseudoRSG_v1_Read.inc, MG_Report_v1_Read.inc) *)
Definition classes (t : str) : option (list field) :=
  if ci_eqb t (lit "Bag") then Some [(lit "name", Optional, One KStr); (lit "contents", Multiple, Ref); (lit "keys", Optional, Vec KStr)]
  else if ci_eqb t (lit "DiscountPWLF_v1") then
    Some [(lit "name", Optional, One KStr); (lit "knotDates", Always, Vec KDate); (lit "leftVals", Always, Vec KNum); (lit "rightVals", Always, Vec KNum); (lit "base", Optional, Ref)]
  else if ci_eqb t (lit "DupireModelData_v1") then
    Some [(lit "name", Optional, One KStr); (lit "spot", Always, One KNum); (lit "rate", Always, One KNum); (lit "repo", Always, One KNum); (lit "spots", Always, Vec KNum);
          (lit "times", Always, Vec KNum); (lit "vols", Always, Mat KNum)]
  else if ci_eqb t (lit "PseudoRSG_v1") then
    Some [(lit "name", Optional, One KStr); (lit "seed", Always, One KNum); (lit "n_dim", Always, One KNum); (lit "precise", Always, One KBool)]
  else if ci_eqb t (lit "Report_v1") then
    Some [(lit "name", Optional, One KStr); (lit "axis_names", Always, Vec KStr); (lit "sizes", Always, Vec KInt); (lit "vals", Always, Vec KNum);
          (lit "header_labels", Multiple, Vec KStr); (lit "header_values", Multiple, Mat KCell)]
  else None.
Notation obj := (object Z unit).
Notation num := (fun x : Z => ANum x : atom Z unit).
(** a bag of a curve, the base of that curve, and a local volatility model *)
Definition base_curve : obj := Object (lit "DiscountPWLF_v1") [(lit "name", VOne (AStr (lit "OIS"))); (lit "knotDates", VVec KDate [ADate 18322; ADate 18688]);
  (lit "leftVals", VVec KNum [num 20000000; num 25000000]); (lit "rightVals", VVec KNum [num 20000000; num (-25000000)])].
Definition shop (a : nat) : obj :=
  match a with
  | O => Object (lit "Bag") [(lit "name", VOne (AStr (lit "market"))); (lit "contents0", VRef 1); (lit "contents1", VRef 2); (lit "contents2", VRef 3);
           (lit "keys", VVec KStr [AStr (lit "forward"); AStr (lit "discount"); AStr (lit "vol")])]
  | 1%nat => Object (lit "DiscountPWLF_v1") [(lit "knotDates", VVec KDate [ADate 18322]); (lit "leftVals", VVec KNum [num 1000000]); (lit "rightVals", VVec KNum [num 0]); (lit "base", VRef 2)]
  | 2%nat => base_curve
  | _ => Object (lit "DupireModelData_v1") [(lit "spot", VOne (num 100000000000)); (lit "rate", VOne (num 30000000)); (lit "repo", VOne (num 0)); (lit "spots", VVec KNum [num 50000000000; num 150000000000]);
           (lit "times", VVec KNum [num 1000000000]); (lit "vols", VMat KNum 1 [[num 150000000]; [num 200000000]])]
  end.
Definition level (a : nat) : nat := match a with O => 2%nat | 1%nat => 1%nat | _ => 0%nat end.
Ltac here := match goal with H : In _ (_ :: _) |- _ => destruct H as [H|H]; [try discriminate H; try (injection H; intros; subst; cbn; lia)|here] | H : In _ [] |- _ => contradiction end.
Lemma shop_reach a : reachable shop 0 a -> (a <= 3)%nat.
Proof.
  intros H. induction H as [|a n b H IH Hin]; [lia|]. destruct a as [|[|[|a]]]; cbn [shop base_curve members] in Hin; here.
Qed.
Ltac safely := repeat (constructor; [repeat split; [discriminate|discriminate|cbn; lia]|]); constructor.
Lemma decimal_check t : (let '(m, r) := match t with c :: r => if Ascii.eqb c "-" then (lit "-", r) else ([], t) | [] => ([], []) end in
  let '(k, q) := skip_digits r in let i := firstn k r in
  match q with c :: f => Ascii.eqb c "." && negb (is_nil i) && negb (is_nil f) && forallb SplatFileModel.digit i && forallb SplatFileModel.digit f &&
    (negb (Ascii.eqb (hd "0"%char i) "0") || Nat.eqb k 1) && (if list_eq_dec ascii_dec (firstn k r ++ q) r then true else false) | [] => false end) = true -> decimal t.
Proof.
  intros H. assert (exists m r, t = m ++ r /\ (m = [] \/ m = lit "-") /\ (let '(k, q) := skip_digits r in let i := firstn k r in
    match q with c :: f => Ascii.eqb c "." && negb (is_nil i) && negb (is_nil f) && forallb SplatFileModel.digit i && forallb SplatFileModel.digit f &&
    (negb (Ascii.eqb (hd "0"%char i) "0") || Nat.eqb k 1) && (if list_eq_dec ascii_dec (firstn k r ++ q) r then true else false) | [] => false end) = true) as (m & r & -> & Hm & G).
  { destruct t as [|c r]; [discriminate|]. destruct (Ascii.eqb_spec c "-") as [->|_]; [exists (lit "-"), r|exists [], (c :: r)]; auto. }
  clear H. destruct (skip_digits r) as [k q]. destruct q as [|c f]; [discriminate|]. cbv zeta in G. repeat (apply andb_true_iff in G as [G ?]).
  destruct (list_eq_dec ascii_dec (firstn k r ++ c :: f) r) as [E|]; [|discriminate]. apply Ascii.eqb_eq in G as ->.
  exists m, (firstn k r), f. rewrite E. split; [reflexivity|]. split; [exact Hm|].
  assert (forall l, negb (is_nil l) = true -> forallb SplatFileModel.digit l = true -> digits l) as Hd.
  { intros l H5 H6. split; [destruct l; [discriminate|discriminate]|]. apply Forall_forall. rewrite forallb_forall in H6. exact H6. }
  split; [now apply Hd|]. split; [now apply Hd|]. apply orb_true_iff in H0 as [H0|H0].
  - right. apply negb_true_iff, Ascii.eqb_neq in H0. exact H0.
  - apply Nat.eqb_eq in H0 as ->. destruct r as [|c r]; [discriminate|]. cbn [firstn hd] in *. destruct (Ascii.eqb_spec c "0") as [->|Hne]; [left; reflexivity|right; exact Hne].
Qed.
Ltac dec := apply decimal_check; vm_compute; reflexivity.

Ltac stored := repeat (cbn [shop base_curve members fst snd storable_value storable akind_of]; match goal with
  | |- Forall _ [] => constructor
  | |- Forall _ (_ :: _) => constructor
  | |- ~ In _ labels => cbn; intuition discriminate
  | |- _ /\ _ => split
  | |- safe _ => safely
  | |- decimal _ => dec
  | |- kept_date _ => split; [lia|vm_compute; reflexivity]
  | |- _ \/ _ => auto
  | |- True => constructor
  | |- _ = _ => reflexivity
  | |- _ < _ => lia
  | |- _ <= _ => lia
  end).
Ltac apart := repeat match goal with |- ForallOrdPairs _ [] => constructor | |- ForallOrdPairs _ (_ :: _) => constructor | |- Forall _ [] => constructor | |- Forall _ (_ :: _) => constructor
  | |- ~ same_up_to_case _ _ => cbn [fst]; let H := fresh in intros H; apply StringProofs.ci_eqb_iff in H; vm_compute in H; discriminate end.
Lemma shop_ok a : (a <= 3)%nat -> archivable show_nano show_unit read_unit classes (shop a).
Proof.
  intros Ha. assert (a = 0 \/ a = 1 \/ a = 2 \/ a = 3)%nat as [->|[->|[->| ->]]] by lia; (split; [discriminate|]; split; [safely|]; split; [eexists; split; [vm_compute; reflexivity|]|split]).
  - apply (fits_there _ _ _ (lit "name") (VOne (AStr (lit "market")))).
    apply (fits_multiple _ _ _ (lit "contents") Ref [VRef 1; VRef 2; VRef 3]); [repeat constructor|cbn; intuition discriminate|].
    apply (fits_there _ _ _ (lit "keys") (VVec KStr _)). constructor.
  - stored.
  - cbn [shop members]. apart.
  - apply fits_missing; [cbn; intuition discriminate|]. apply (fits_always _ _ _ (lit "knotDates") (VVec KDate _)). apply (fits_always _ _ _ (lit "leftVals") (VVec KNum _)).
    apply (fits_always _ _ _ (lit "rightVals") (VVec KNum _)). apply (fits_there _ _ _ (lit "base") (VRef 2)). constructor.
  - stored.
  - cbn [shop members]. apart.
  - apply (fits_there _ _ _ (lit "name") (VOne (AStr (lit "OIS")))). apply (fits_always _ _ _ (lit "knotDates") (VVec KDate _)). apply (fits_always _ _ _ (lit "leftVals") (VVec KNum _)).
    apply (fits_always _ _ _ (lit "rightVals") (VVec KNum _)). apply fits_missing; [cbn; intuition discriminate|]. constructor.
  - stored.
  - cbn [shop base_curve members]. apart.
  - apply fits_missing; [cbn; intuition discriminate|]. apply (fits_always _ _ _ (lit "spot") (VOne (ANum _))). apply (fits_always _ _ _ (lit "rate") (VOne (ANum _))).
    apply (fits_always _ _ _ (lit "repo") (VOne (ANum _))). apply (fits_always _ _ _ (lit "spots") (VVec KNum _)). apply (fits_always _ _ _ (lit "times") (VVec KNum _)).
    apply (fits_always _ _ _ (lit "vols") (VMat KNum _ _)). constructor.
  - stored.
  - cbn [shop members]. apart.
Qed.
(** The bag meets the hypotheses; the base curve is written once and built once. *)
Example C71_example : (forall a, reachable shop 0 a -> archivable show_nano show_unit read_unit classes (shop a)) /\ acyclic shop 0 level /\
  exists text, write shop 2 0 = Ok text /\ read classes 2 text = Ok (3%nat, [base_curve;
    Object (lit "DiscountPWLF_v1") [(lit "knotDates", VVec KDate [ADate 18322]); (lit "leftVals", VVec KNum [num 1000000]); (lit "rightVals", VVec KNum [num 0]); (lit "base", VRef 0)];
    shop 3;
    Object (lit "Bag") [(lit "name", VOne (AStr (lit "market"))); (lit "contents0", VRef 1); (lit "contents1", VRef 0); (lit "contents2", VRef 2);
      (lit "keys", VVec KStr [AStr (lit "forward"); AStr (lit "discount"); AStr (lit "vol")])]]).
Proof.
  split; [intros a H; apply shop_ok, shop_reach, H|]. split.
  - intros a n b H Hin. apply shop_reach in H. assert (a = 0 \/ a = 1 \/ a = 2 \/ a = 3)%nat as [->|[->|[->| ->]]] by lia; cbn [shop base_curve members] in Hin; here.
  - eexists. split; [vm_compute; reflexivity|]. vm_compute. reflexivity.
Qed.

(** * Refuted: what is archived comes back *)
Definition only (o : obj) : nat -> obj := fun _ => o.
Definition copied (o o' : obj) : Prop := exists text, write (only o) 0 0 = Ok text /\ read classes 0 text = Ok (0%nat, [o']).
Definition dupire (rate : Z) (w : Z) (vols : list (list (atom Z unit))) : obj := Object (lit "DupireModelData_v1") [(lit "spot", VOne (num 100000000000)); (lit "rate", VOne (num rate));
  (lit "repo", VOne (num 0)); (lit "spots", VVec KNum []); (lit "times", VVec KNum []); (lit "vols", VMat KNum w vols)].
(** Numbers are kept to six decimals only: a rate of 4e-7 becomes 0, and 0.0123456789 becomes 0.012346. *)
Theorem C71_precision_refuted : copied (dupire 400 1 [[num 12345679]]) (dupire 0 1 [[num 12346000]]).
Proof. eexists. split; [vm_compute; reflexivity|]. vm_compute. reflexivity. Qed.
Print Assumptions C71_precision_refuted.
(** Whole numbers and single flags are written as decimal numbers, and can never be read back as what they were. *)
Theorem C71_whole_numbers_refuted {N T} of_int show_double value_of show_time read_time time_of : (forall z, decimal (show_double (of_int z))) ->
  (forall z, exists j, parse (atom_text of_int show_double show_time (AInt z : atom N T)) = Some j /\ read_atom (N := N) (T := T) value_of read_time time_of KInt j = Throw) /\
  (forall b, exists j, parse (single_text of_int show_double show_time (ABool b : atom N T)) = Some j /\ read_atom (N := N) (T := T) value_of read_time time_of KBool j = Throw).
Proof.
  intros H. split.
  - intros z. exists (JNum (show_double (of_int z))). split; [apply reads_parse, reads_decimal, H|]. cbn [read_atom e_int]. unfold json_int. pose proof (decimal_double _ (H z)) as G.
    unfold json_double in G. destruct (whole (show_double (of_int z))) as [w|]; [|reflexivity]. replace ((-2147483648 <=? w) && (w <=? 2147483647)) with false by lia. reflexivity.
  - intros b. exists (JNum (show_double (of_int (if b then 1 else 0)))). split; [apply reads_parse, reads_decimal, H|]. reflexivity.
Qed.
Print Assumptions C71_whole_numbers_refuted.
(** So a generator of random numbers can be archived, but not read back. *)
Theorem C71_flag_refuted : forall b,
  exists text, write (only (Object (lit "PseudoRSG_v1") [(lit "seed", VOne (num 5000000000)); (lit "n_dim", VOne (num 3000000000)); (lit "precise", VOne (ABool b))])) 0 0 = Ok text /\ read classes 0 text = Throw.
Proof. intros b. destruct b; (eexists; split; [vm_compute; reflexivity|]; vm_compute; reflexivity). Qed.
Print Assumptions C71_flag_refuted.
(** Nor can a report: its sizes are whole numbers. *)
Definition report (sizes : list Z) (header : list (atom Z unit)) : obj := Object (lit "Report_v1") [(lit "axis_names", VVec KStr [AStr (lit "t")]); (lit "sizes", VVec KInt (map AInt sizes));
  (lit "vals", VVec KNum [num 0; num 1000000000]); (lit "header_labels0", VVec KStr [AStr (lit "date")]); (lit "header_values0", VMat KCell 1 (map (fun c => [c]) header))].
Theorem C71_sizes_refuted : exists text, write (only (report [2] [ACell (CNum 0); ACell (CNum 0)])) 0 0 = Ok text /\ read classes 0 text = Throw.
Proof. eexists. split; [vm_compute; reflexivity|]. vm_compute. reflexivity. Qed.
Print Assumptions C71_sizes_refuted.
(** Cells: an empty one becomes an empty text, and a text that looks like a date becomes a date. *)
Theorem C71_cells_refuted : copied (report [] [ACell CEmpty; ACell (CStr (lit "2020-02-29"))]) (report [] [ACell (CStr []); ACell (CDate 18322)]).
Proof. eexists. split; [vm_compute; reflexivity|]. vm_compute. reflexivity. Qed.
Print Assumptions C71_cells_refuted.
(** A name with a quote in it gives a text that is not JSON, and reading it is undefined. *)
Definition bag (name : str) : obj := Object (lit "Bag") [(lit "name", VOne (AStr name))].
Theorem C71_quote_refuted : exists text, write (only (bag (quote :: lit "A" ++ [quote]))) 0 0 = Ok text /\ parse text = None /\ read classes 0 text = UB.
Proof. eexists. split; [vm_compute; reflexivity|]. split; vm_compute; reflexivity. Qed.
Print Assumptions C71_quote_refuted.
(** A name with a backslash comes back without it. *)
Theorem C71_backslash_refuted : copied (bag (lit "C:\fx")) (bag (lit "C:" ++ "012"%char :: lit "x")).
Proof. eexists. split; [vm_compute; reflexivity|]. vm_compute. reflexivity. Qed.
Print Assumptions C71_backslash_refuted.
(** An empty matrix cannot be read back. *)
Theorem C71_empty_matrix_refuted : exists text, write (only (dupire 0 0 [])) 0 0 = Ok text /\ read classes 0 text = Throw.
Proof. eexists. split; [vm_compute; reflexivity|]. vm_compute. reflexivity. Qed.
Print Assumptions C71_empty_matrix_refuted.
(** A number that is not finite gives a text that is not JSON: here the numbers are inf and every text reads as it. *)
Theorem C71_infinite_refuted : exists text, write_string (fun _ => tt) (fun _ => lit "inf") show_unit (fun _ => Object (lit "DupireModelData_v1") [(lit "spot", VOne (ANum tt))]) 0 0 = Ok text /\
  read_string (fun _ => tt) read_unit (fun _ => Throw) classes 0 text = UB.
Proof. eexists. split; [vm_compute; reflexivity|]. vm_compute. reflexivity. Qed.
Print Assumptions C71_infinite_refuted.
(** A date may also be given as the whole number a spreadsheet has for it. *)
Theorem C71_date_number : forall d, 1 <= d < 65536 -> e_date (JNum (show_int (to_excel d))) = Ok d.
Proof.
  intros d H. unfold e_date. rewrite json_int_show by (unfold to_excel, EXCEL_OFFSET; lia). f_equal. unfold from_excel, to_excel, u16.
  replace ((EXCEL_OFFSET <? d + EXCEL_OFFSET) && (d + EXCEL_OFFSET <? EXCEL_OFFSET + 65536)) with true by (symmetry; apply andb_true_iff; split; apply Z.ltb_lt; lia).
  rewrite Z.add_simpl_r. apply Z.mod_small. lia.
Qed.
Print Assumptions C71_date_number.
Example C71_date_number_example : show_int (to_excel (mk_date 2020 2 29)) = lit "43890" /\ e_date (JNum (lit "43890")) = Ok (mk_date 2020 2 29).
Proof. split; vm_compute; reflexivity. Qed.

(** C20: the event timeline of a script product. *)
From Coq Require Import String Ascii ZArith List Bool Sorted Permutation Lia.
From Verif Require Import Base DateModel StringModel StringSpec StringProofs HolidayModel ScheduleModel OMap EventModel EventSpec EventProofs.
Import ListNotations.
Open Scope Z_scope.

Section Product.
Context {Number Prog : Type}.
Variables (reg : hdata) (combos : list (str * center)) (tokenize : str -> list str) (number : str -> option Number)
  (parse : omap str Number -> str -> outcome Prog) (regex_replace : str -> str -> str -> outcome str) (fuel : nat) (eval_date : Z).
Let read (desc : str) (ps : list (Z * Z * Z)) : Prop := parse_schedule reg combos fuel (tokenize desc) = Ok ps.
Let product := parse_events reg combos tokenize number parse regex_replace fuel eval_date.

(** A product that is accepted: its macros and constants have different names and come before everything that gives an event;
    its programs are those of the timeline of the statements written, with every macro replaced. *)
Theorem C20_timeline : forall rows past future, product rows = Ok (past, future) ->
  plain_macros (macro_rows number rows) ->
  exists ms cs es, arranged ms (macro_rows number rows) /\ arranged cs (const_rows number rows) /\
    entries read ms rows es /\
    timeline_of (parse cs) eval_date es past future /\
    forall pre r post, rows = pre ++ r :: post -> is_definition r = true -> entries read ms pre [].
Proof.
  intros rows past future E P. unfold product, parse_events in E.
  destruct (add_rows reg combos tokenize number regex_replace fuel (Acc [] [] []) rows) as [a| | |] eqn:Ea; cbn [obind] in E; try discriminate.
  destruct (add_rows_inv reg combos tokenize number regex_replace fuel rows [] _ [] a (inv_start _ _ _ _ _) Ea P) as (es & [Im Ic It Ie If]).
  cbn [app] in *. exists (macros a), (consts a), es. split; [exact Im|]. split; [exact Ic|]. split; [exact (Ie P)|]. split.
  - exact (timeline_ok parse eval_date (consts a) (timeline a) es past future It E).
  - intros pre r post Er D. exact (If pre r post Er D P).
Qed.

(** Every product written that way is accepted. *)
Lemma find_none {A} ms (given : list (str * A)) n : arranged ms given -> Forall (fun p => ~ same_up_to_case (fst p) n) given -> mfind ci_compare ms n = None.
Proof.
  intros [Pm _] F. destruct (mfind ci_compare ms n) as [v|] eqn:E; [|reflexivity]. exfalso.
  apply mfind_in in E as (x & Hx & Ex). apply (Permutation_in _ Pm) in Hx. rewrite Forall_forall in F. apply (F _ Hx). cbn. now apply ci_compare_eq.
Qed.
Lemma macro_names rows p : In p (macro_rows number rows) -> exists r, In r rows /\ name_of r = fst p.
Proof.
  unfold macro_rows. rewrite in_flat_map. intros (r & Hr & Hp). exists r. split; [exact Hr|].
  destruct (is_definition r); [|destruct Hp]. destruct (number (text_of r)); [destruct Hp|]. destruct Hp as [<-|[]]. reflexivity.
Qed.
Lemma const_names rows p : In p (const_rows number rows) -> exists r, In r rows /\ name_of r = fst p.
Proof.
  unfold const_rows. rewrite in_flat_map. intros (r & Hr & Hp). exists r. split; [exact Hr|].
  destruct (is_definition r); [|destruct Hp]. destruct (number (text_of r)); [|destruct Hp]. destruct Hp as [<-|[]]. reflexivity.
Qed.
Lemma accept_definitions : forall defs done a, inv reg combos tokenize number fuel done a [] -> timeline a = [] ->
  Forall (fun r => is_definition r = true) defs -> plain_macros (macro_rows number (done ++ defs)) ->
  ForallOrdPairs (fun r r' => ~ same_up_to_case (name_of r) (name_of r')) (done ++ defs) ->
  exists a1, add_rows reg combos tokenize number regex_replace fuel a defs = Ok a1 /\ inv reg combos tokenize number fuel (done ++ defs) a1 [] /\ timeline a1 = [].
Proof.
  induction defs as [|r defs IH]; intros done a I T D P N; cbn [add_rows].
  { exists a. rewrite app_nil_r. auto. }
  inversion D as [|? ? Dr Drest]; subst.
  assert (E : done ++ r :: defs = (done ++ [r]) ++ defs) by (rewrite <- app_assoc; reflexivity). rewrite E in *.
  assert (P1 : plain_macros (macro_rows number (done ++ [r]))) by (rewrite macro_rows_app in P; apply Forall_app in P; tauto).
  assert (F : Forall (fun r' => ~ same_up_to_case (name_of r') (name_of r)) done).
  { clear - N. rewrite <- app_assoc in N. cbn in N. induction done as [|x done IHd]; constructor.
    - inversion N as [|? ? H _]; subst. rewrite Forall_forall in H. apply H. apply in_or_app. right. left. reflexivity.
    - apply IHd. now inversion N. }
  rewrite Forall_forall in F.
  assert (X : exists a2, add_row reg combos tokenize number regex_replace fuel a r = Ok a2 /\ timeline a2 = []).
  { destruct r as [|desc text]; [discriminate|]. cbn [add_row]. cbn in Dr. destruct (existsb (Ascii.eqb ":"%char) desc); [discriminate|].
    rewrite (find_none _ _ desc (inv_macros _ _ _ _ _ _ _ _ I)).
    2:{ rewrite Forall_forall. intros p Hp. apply macro_names in Hp as (r & Hr & <-). exact (F r Hr). }
    rewrite (find_none _ _ desc (inv_consts _ _ _ _ _ _ _ _ I)).
    2:{ rewrite Forall_forall. intros p Hp. apply const_names in Hp as (r & Hr & <-). exact (F r Hr). }
    rewrite T. destruct (number text); eauto. }
  destruct X as (a2 & E2 & T2). rewrite E2. cbn [obind].
  destruct (add_row_inv reg combos tokenize number regex_replace fuel done a [] r a2 I E2 P1) as (new & I2).
  assert (new = []) by (cbn [app] in I2; eapply represents_nil; [apply (inv_timeline _ _ _ _ _ _ _ _ I2)|exact T2]). subst new.
  apply IH; auto.
Qed.
Lemma accept_events : forall evs done a es, inv reg combos tokenize number fuel done a es ->
  Forall (fun r => is_definition r = false /\ (is_schedule (name_of r) -> exists ps, read (name_of r) ps)) evs -> plain_macros (macro_rows number (done ++ evs)) ->
  exists a1 es1, add_rows reg combos tokenize number regex_replace fuel a evs = Ok a1 /\ inv reg combos tokenize number fuel (done ++ evs) a1 es1.
Proof.
  induction evs as [|r evs IH]; intros done a es I D P; cbn [add_rows].
  { exists a, es. rewrite app_nil_r. auto. }
  inversion D as [|? ? [Dr Sr] Drest]; subst.
  assert (E : done ++ r :: evs = (done ++ [r]) ++ evs) by (rewrite <- app_assoc; reflexivity). rewrite E in *.
  assert (P1 : plain_macros (macro_rows number (done ++ [r]))) by (rewrite macro_rows_app in P; apply Forall_app in P; tauto).
  assert (Pd : plain_macros (macro_rows number done)) by (rewrite macro_rows_app in P1; apply Forall_app in P1; tauto).
  assert (Pa : plain_macros (macros a)) by (eapply plain_perm; [apply (inv_macros _ _ _ _ _ _ _ _ I)|exact Pd]).
  assert (X : exists a2, add_row reg combos tokenize number regex_replace fuel a r = Ok a2).
  { destruct r as [d text|desc text]; cbn [add_row].
    - destruct (expand_spec regex_replace (macros a) text Pa) as (t & -> & _). cbn. eauto.
    - cbn in Dr. destruct (existsb (Ascii.eqb ":"%char) desc) eqn:Ed; [|discriminate].
      destruct (Sr (proj1 (schedule_iff desc) Ed)) as (ps & R). unfold read in R. cbn [name_of] in R. rewrite R. cbn [obind].
      destruct (expand_spec regex_replace (macros a) text Pa) as (t & -> & _). cbn. eauto. }
  destruct X as (a2 & E2). rewrite E2. cbn [obind].
  destruct (add_row_inv reg combos tokenize number regex_replace fuel done a es r a2 I E2 P1) as (new & I2).
  eapply IH; eauto.
Qed.
Theorem C20_accepted : forall defs evs,
  Forall (fun r => is_definition r = true) defs ->
  ForallOrdPairs (fun r r' => ~ same_up_to_case (name_of r) (name_of r')) defs ->
  Forall (fun r => is_definition r = false /\ (is_schedule (name_of r) -> exists ps, read (name_of r) ps)) evs ->
  plain_macros (macro_rows number (defs ++ evs)) ->
  (forall ms cs es, arranged ms (macro_rows number (defs ++ evs)) -> arranged cs (const_rows number (defs ++ evs)) ->
     entries read ms (defs ++ evs) es -> forall d, In d (map fst es) -> exists p, parse cs (join "010"%char (texts_on d es)) = Ok p) ->
  exists past future, product (defs ++ evs) = Ok (past, future).
Proof.
  intros defs evs D N Ev P Q. unfold product, parse_events.
  assert (Pd : plain_macros (macro_rows number ([] ++ defs))) by (rewrite macro_rows_app in P; apply Forall_app in P; cbn; tauto).
  destruct (accept_definitions defs [] (Acc [] [] []) (inv_start _ _ _ _ _) eq_refl D Pd N) as (a1 & E1 & I1 & T1).
  destruct (accept_events evs _ a1 [] I1 Ev P) as (a2 & es & E2 & I2). cbn [app] in I2.
  assert (E : add_rows reg combos tokenize number regex_replace fuel (Acc [] [] []) (defs ++ evs) = Ok a2).
  { clear - E1 E2. revert E1. generalize (@Acc Number [] [] []). induction defs as [|r defs IH]; intros a E1; cbn [add_rows app] in *; [injection E1 as ->; exact E2|].
    destruct (add_row reg combos tokenize number regex_replace fuel a r); cbn [obind] in *; try discriminate. apply IH, E1. }
  rewrite E. cbn [obind]. destruct I2 as [Im Ic It Ie If].
  destruct (parse_all_total parse eval_date (consts a2) (timeline a2)) as ([past future] & ->); [|eauto].
  intros d t Hin. pose proof (proj2 It d) as F.
  rewrite (in_mfind _ zc_anti zc_eq_l (timeline a2) d t d (proj1 It) Hin (Z.compare_refl d)) in F.
  assert (Hd : In d (map fst es)) by (apply (represents_dates (timeline a2) es d It); apply in_map_iff; exists (d, t); auto).
  destruct (Q (macros a2) (consts a2) es Im Ic (Ie P) d Hd) as (p & Ep).
  destruct (texts_on d es) as [|y l]; [discriminate|]. injection F as ->. eauto.
Qed.
End Product.
Print Assumptions C20_timeline.
Print Assumptions C20_accepted.

(** A schedule is read as its consecutive periods, fixed at the end (the default) or at the beginning. *)
Theorem C20_periods : forall at_end ds k s e f, nth_error (periods at_end ds) k = Some (s, e, f) <->
  nth_error ds k = Some s /\ nth_error ds (S k) = Some e /\ f = if at_end then e else s.
Proof.
  intros at_end ds. induction ds as [|a [|b r] IH]; intros k s e f.
  - destruct k; cbn; split; [discriminate|intros (H & _); discriminate|discriminate|intros (H & _); discriminate].
  - cbn [periods]. destruct k; cbn; split; try discriminate; intros (H & H2 & _); [discriminate|destruct k; discriminate].
  - cbn [periods]. destruct k as [|k].
    + cbn [nth_error]. split.
      * intros H. injection H as -> -> <-. auto.
      * intros (H1 & H2 & ->). injection H1 as ->. injection H2 as ->. reflexivity.
    + exact (IH k s e f).
Qed.
Print Assumptions C20_periods.

(** * An example: two dates, a macro, a constant, events out of order and one date twice *)
Definition ex_rows : list row :=
  [Named (lit "STRIKE") (lit "110.0"); Named (lit "cap") (lit "STRIKE * 2"); Dated 20500 (lit "x = Cap"); Dated 20000 (lit "y = 1");
   Dated 20500 (lit "z = 3"); Dated 19000 (lit "w = 4")].
Definition ex_number (t : str) : option str := if ci_eqb t (lit "110.0") then Some t else None.
Example C20_example : plain_macros (macro_rows ex_number ex_rows) /\
  parse_events hd_empty [] (fun s => [s]) ex_number (fun cs t => Ok (cs, t)) (fun _ _ _ => Throw) 100 20000 ex_rows =
  Ok ([(19000, ([(lit "STRIKE", lit "110.0")], lit "w = 4"))],
      [(20000, ([(lit "STRIKE", lit "110.0")], lit "y = 1"));
       (20500, ([(lit "STRIKE", lit "110.0")], lit "x = STRIKE * 2" ++ newline :: lit "z = 3"))]).
Proof. split; [repeat constructor|vm_compute; reflexivity]. Qed.
(** a schedule: two half-year periods *)
Example C20_schedule_example :
  parse_schedule hd_empty [] 100 (map lit ["START"; ":"; "2023"; "-"; "01"; "-"; "15"; "END"; ":"; "2024"; "-"; "01"; "-"; "15"; "FREQ"; ":"; "6m"; "FIXING"; ":"; "BEGIN"]%string) =
  Ok [(19373, 19554, 19373); (19554, 19738, 19554)].
Proof. vm_compute. reflexivity. Qed.

(** * Departures *)
(** FIXING is accepted only as the last parameter: followed by any other one the product is rejected. *)
Theorem C20_fixing_not_last_refuted : forall reg combos fuel s name v rest st, (3 <= fuel)%nat -> ci_eqb name (lit "FIXING") = true ->
  ci_eqb v (lit "BEGIN") = true \/ ci_eqb v (lit "END") = true -> rest <> [] ->
  sched_loop reg combos fuel (name :: lit ":" :: v :: rest) st <> Ok s.
Proof.
  intros reg combos fuel s name v rest st Hf Hn Hv Hr.
  destruct fuel as [|[|f]]; [lia|lia|]. cbn [sched_loop]. rewrite ci_eqb_refl. cbn [negb].
  assert (X : forall w, ci_eqb name w = ci_eqb (lit "FIXING") w).
  { intros w. unfold ci_eqb. unfold ci_eqb in Hn. rewrite (ci_compare_eq_l name (lit "FIXING") w); [reflexivity|]. destruct (ci_compare name (lit "FIXING")); congruence. }
  rewrite !X. change (ci_eqb (lit "FIXING") (lit "START")) with false. change (ci_eqb (lit "FIXING") (lit "END")) with false.
  change (ci_eqb (lit "FIXING") (lit "FREQ")) with false. change (ci_eqb (lit "FIXING") (lit "CALENDAR")) with false.
  change (ci_eqb (lit "FIXING") (lit "BizRule")) with false. change (ci_eqb (lit "FIXING") (lit "FIXING")) with true. cbv iota.
  assert (Nc : ci_eqb v (lit ":") = false).
  { destruct (ci_eqb v (lit ":")) eqn:E; [|reflexivity]. rewrite ci_eq_sym in E.
    destruct Hv as [H|H]; pose proof (ci_eqb_trans _ _ _ E H) as Z; vm_compute in Z; discriminate. }
  destruct rest as [|r rest]; [congruence|]. rewrite Nc. cbn [negb]. destruct Hv as [H|H]; rewrite H; [discriminate|].
  destruct (ci_eqb v (lit "BEGIN")); discriminate.
Qed.
Print Assumptions C20_fixing_not_last_refuted.
(** A macro is also replaced inside longer names. *)
Theorem C20_inside_names_refuted : replaced (lit "K") (lit "100") (lit "spike = K") (lit "spi100e = 100").
Proof. exact (replace_all_spec (lit "K") (lit "100") ltac:(discriminate) (lit "spike = K")). Qed.
Print Assumptions C20_inside_names_refuted.
(** A description that is only a colon, a schedule with a truncated date and one without FREQ read out of range or through a
    null pointer. *)
Theorem C20_schedule_text_refuted : forall reg combos fuel,
  parse_schedule reg combos fuel [lit ":"] = UB /\
  parse_schedule reg combos fuel (map lit ["START"; ":"; "2023"]%string) = UB /\
  parse_schedule reg combos fuel (map lit ["START"; ":"; "2023"; "-"; "01"; "-"; "15"]%string) = UB.
Proof. intros. vm_compute. repeat split. Qed.
Print Assumptions C20_schedule_text_refuted.

From Coq Require Import String Ascii ZArith List Bool Lia Arith Sorted ZifyBool DecimalString.
From Verif Require Import Base Vec DateModel StringModel StringSpec StringProofs HolidayModel OMap DictModel DictProofs FlagModel ScriptModel EventModel EventProofs RiskModel DealModel DealSpec.
Import ListNotations.
Open Scope Z_scope.
Open Scope list_scope.

(** * the map of values *)
Section Map.
Context {N : Num}.
Notation msorted := (msorted (V:=num) ci_compare).
Lemma assign_sorted m k v : msorted m -> msorted (massign ci_compare m k v).
Proof. intros H. apply massign_sorted; try exact ci_compare_antisym; try exact ci_compare_lt_trans; try exact ci_compare_eq_l; exact H. Qed.
Lemma assign_find m k v k' : msorted m -> mfind ci_compare (massign ci_compare m k v) k' = match ci_compare k k' with Eq => Some v | _ => mfind ci_compare m k' end.
Proof. intros H. apply mfind_massign; try exact ci_compare_antisym; try exact ci_compare_lt_trans; try exact ci_compare_eq_l; exact H. Qed.
Lemma assign_length m k v : msorted m -> mfind ci_compare m k = None -> length (massign ci_compare m k v) = S (length m).
Proof.
  induction m as [|[x w] m IH]; intros S0 E; [reflexivity|]. apply sorted_inv in S0 as [S0 _]. cbn [mfind] in E. cbn [massign]. destruct (ci_compare k x) eqn:C.
  - rewrite (ci_compare_antisym k x), C in E. discriminate.
  - reflexivity.
  - cbn [length]. f_equal. apply IH; [exact S0|]. destruct (ci_compare x k); [discriminate|exact E|exact E].
Qed.
Lemma assign_length_old m k v w : mfind ci_compare m k = Some w -> msorted m -> length (massign ci_compare m k v) = length m.
Proof.
  induction m as [|[x u] m IH]; intros E S0; [discriminate|]. apply sorted_inv in S0 as [S0 F]. cbn [mfind] in E. cbn [massign]. destruct (ci_compare k x) eqn:C.
  - reflexivity.
  - exfalso. rewrite (ci_compare_antisym k x), C in E. cbn [CompOpp] in E. rewrite (mfind_above ci_compare) in E; [discriminate|exact ci_compare_antisym|]. eapply Forall_impl; [|exact F]. intros [y z] Q. unfold below in Q. cbn [fst] in *. eapply ci_compare_lt_trans; eauto.
  - cbn [length]. f_equal. apply IH; [|exact S0]. rewrite (ci_compare_antisym k x), C in E. exact E.
Qed.
Lemma put_sorted l : forall m, msorted m -> msorted (put_risks m l).
Proof. induction l as [|[n v] l IH]; intros m S0; cbn [put_risks]; auto using assign_sorted. Qed.
Lemma prefix_compare p a b : ci_compare (p ++ a) (p ++ b) = ci_compare a b.
Proof.
  induction p as [|c p IH]; [reflexivity|]. cbn [app ci_compare]. rewrite IH. pose proof (ci_compare_refl [c]) as Q. cbn [ci_compare] in Q. destruct (clt c c); [discriminate|reflexivity].
Qed.
Lemma put_keys l : forall m k v, In (k, v) (put_risks m l) -> In k (map fst m) \/ exists n, In n (map fst l) /\ k = lit "d_" ++ n.
Proof.
  induction l as [|[n w] l IH]; intros m k v H; cbn [put_risks] in H; [left; apply (in_map fst) in H; exact H|]. apply IH in H as [H|(n' & H & ->)]; [|right; exists n'; split; [now right|reflexivity]].
  assert (Q : forall m0, In k (map fst (massign ci_compare m0 (lit "d_" ++ n) w)) -> In k (map fst m0) \/ k = lit "d_" ++ n).
  { clear. induction m0 as [|[x u] m0 IH]; [intros [<-|[]]; now right|]. cbn [massign]. destruct (ci_compare _ x); cbn [map fst In]; intros H.
    - destruct H as [<-|H]; auto.
    - destruct H as [<-|[<-|H]]; auto.
    - destruct H as [<-|H]; [auto|]. apply IH in H as [H|H]; auto. }
  apply Q in H as [H|H]; [now left|]. right. exists n. split; [now left|exact H].
Qed.
(** the values of names that are the same are the same *)
Definition consistent (l : list (str * num)) : Prop := forall a v b w, In (a, v) l -> In (b, w) l -> same_up_to_case a b -> v = w.
Lemma consistent_cons p l : consistent (p :: l) -> consistent l.
Proof. intros C a v b w Ha Hb. apply C; now right. Qed.
Lemma put_find l : forall m n v, msorted m -> consistent l -> In (n, v) l -> mfind ci_compare (put_risks m l) (lit "d_" ++ n) = Some v.
Proof.
  induction l as [|[a w] l IH]; intros m n v S0 C H; [destruct H|]. cbn [put_risks].
  destruct (in_dec (fun x y => list_eq_dec ascii_dec x y) n (map fst l)) as [I0|I0].
  - apply in_map_iff in I0 as ([n' v'] & En & I0). cbn in En. subst n'. assert (v' = v) as -> by (apply (C n v' n v); [now right|exact H|apply same_refl]). apply IH; auto using assign_sorted. eapply consistent_cons; eauto.
  - destruct H as [H|H]; [|exfalso; apply I0; apply in_map_iff; now exists (n, v)]. assert (a = n) by congruence. assert (w = v) by congruence. subst a w. clear IH I0.
    assert (C' : consistent l) by (eapply consistent_cons; eauto).
    assert (G : forall l', (forall x, In x l' -> In x l) -> forall m0, msorted m0 -> mfind ci_compare m0 (lit "d_" ++ n) = Some v -> mfind ci_compare (put_risks m0 l') (lit "d_" ++ n) = Some v).
    { induction l' as [|[b u] l' IH]; intros Hi m0 S1 E; cbn [put_risks]; [exact E|]. apply IH; auto using assign_sorted; [intros; apply Hi; now right|]. rewrite assign_find by exact S1. rewrite prefix_compare.
      destruct (ci_compare b n) eqn:Cb; auto. f_equal. apply (C b u n v); [right; apply Hi; now left|now left|]. now apply ci_compare_eq. }
    apply G; auto using assign_sorted. rewrite assign_find by exact S0. now rewrite prefix_compare, ci_compare_refl.
Qed.
Lemma put_find_pv l : forall m, msorted m -> mfind ci_compare (put_risks m l) (lit "PV") = mfind ci_compare m (lit "PV").
Proof. induction l as [|[a w] l IH]; intros m S0; cbn [put_risks]; [reflexivity|]. rewrite IH by auto using assign_sorted. now rewrite assign_find. Qed.
Lemma put_find_other l : forall m n, msorted m -> (forall a, In a (map fst l) -> ~ same_up_to_case a n) -> mfind ci_compare (put_risks m l) (lit "d_" ++ n) = mfind ci_compare m (lit "d_" ++ n).
Proof.
  induction l as [|[a w] l IH]; intros m n S0 H; cbn [put_risks]; [reflexivity|]. rewrite IH; [|auto using assign_sorted|intros b Hb; apply H; now right]. rewrite assign_find by exact S0. rewrite prefix_compare.
  destruct (ci_compare a n) eqn:E; auto. exfalso. apply (H a); [now left|now apply ci_compare_eq].
Qed.
Lemma put_length l : forall m, msorted m -> all_differ (map fst l) -> (forall a, In a (map fst l) -> mfind ci_compare m (lit "d_" ++ a) = None) -> length (put_risks m l) = (length m + length l)%nat.
Proof.
  induction l as [|[a w] l IH]; intros m S0 D H; cbn [put_risks length]; [lia|]. rewrite IH.
  - rewrite assign_length; [lia|exact S0|apply H; now left].
  - auto using assign_sorted.
  - intros i j x y Hi Hj Q. assert (S i = S j) by (apply (D (S i) (S j) x y Hi Hj Q)). lia.
  - intros b Hb. rewrite assign_find by exact S0. rewrite prefix_compare. destruct (ci_compare a b) eqn:E; [|apply H; now right..]. exfalso. apply In_nth_error in Hb as [j Hj].
    assert (0%nat = S j) by (apply (D 0%nat (S j) a b eq_refl Hj); now apply ci_compare_eq). discriminate.
Qed.
Lemma put_length_le l : forall m, msorted m -> (length (put_risks m l) <= length m + length l)%nat.
Proof.
  induction l as [|[a w] l IH]; intros m S0; cbn [put_risks length]; [lia|]. specialize (IH (massign ci_compare m (lit "d_" ++ a) w) (assign_sorted _ _ _ S0)).
  destruct (mfind ci_compare m (lit "d_" ++ a)) eqn:E; [rewrite (assign_length_old _ _ _ _ E S0) in IH|rewrite (assign_length _ _ _ S0 E) in IH]; lia.
Qed.
(** two names the same: a row less *)
Lemma put_length_lt l : forall m i j a b, msorted m -> (i < j)%nat -> nth_error (map fst l) i = Some a -> nth_error (map fst l) j = Some b -> same_up_to_case a b -> (length (put_risks m l) < length m + length l)%nat.
Proof.
  assert (K : forall l m j b, msorted m -> mfind ci_compare m (lit "d_" ++ b) <> None -> nth_error (map fst l) j = Some b -> (length (put_risks m l) < length m + length l)%nat).
  { induction l0 as [|[x w] l0 IH]; intros m j b S0 E H; [destruct j; discriminate|]. cbn [put_risks length]. destruct j as [|j]; cbn [map fst nth_error] in H.
    - assert (x = b) by congruence. subst x. destruct (mfind ci_compare m (lit "d_" ++ b)) eqn:E'; [|congruence]. pose proof (put_length_le l0 (massign ci_compare m (lit "d_" ++ b) w) (assign_sorted _ _ _ S0)) as Q. rewrite (assign_length_old _ _ _ _ E' S0) in Q. unfold omap, str in *. lia.
    - assert (Q : (length (put_risks (massign ci_compare m (lit "d_" ++ x) w) l0) < length (massign ci_compare m (lit "d_" ++ x) w) + length l0)%nat).
      { apply (IH _ j b); auto using assign_sorted. rewrite assign_find by exact S0. destruct (ci_compare (lit "d_" ++ x) (lit "d_" ++ b)); congruence. }
      pose proof (put_length_le [(x, w)] m S0) as Q2. cbn [put_risks length] in Q2. lia. }
  induction l as [|[x w] l IH]; intros m i j a b S0 L Ha Hb Q; [destruct i; discriminate|]. cbn [put_risks length]. destruct j as [|j]; [lia|]. cbn [map fst nth_error] in Hb. pose proof (put_length_le [(x, w)] m S0) as Q2. cbn [put_risks length] in Q2. destruct i as [|i]; cbn [map fst nth_error] in Ha.
  - assert (x = a) by congruence. subst x. assert (Q3 : (length (put_risks (massign ci_compare m (lit "d_" ++ a) w) l) < length (massign ci_compare m (lit "d_" ++ a) w) + length l)%nat); [|lia].
    apply (K l _ j b); auto using assign_sorted. rewrite assign_find by exact S0. rewrite prefix_compare. apply ci_compare_eq in Q. rewrite Q. discriminate.
  - assert (Q3 := IH _ i j a b (assign_sorted m (lit "d_" ++ x) w S0) ltac:(lia) Ha Hb Q). lia.
Qed.
(** ** the report *)
Lemma place_last names : forall i n, match place_of names i n with
  | Some k => exists p a, k = (i + p)%nat /\ nth_error names p = Some a /\ same_up_to_case a n /\ forall j b, (p < j)%nat -> nth_error names j = Some b -> ~ same_up_to_case b n
  | None => forall a, In a names -> ~ same_up_to_case a n end.
Proof.
  induction names as [|x names IH]; intros i n; cbn [place_of]; [intros a []|]. specialize (IH (S i) n). destruct (place_of names (S i) n) as [k|].
  - destruct IH as (p & a & -> & Ha & Q & L). exists (S p), a. split; [lia|]. split; [exact Ha|]. split; [exact Q|]. intros [|j] b Hj Hb; [lia|]. apply (L j); [lia|exact Hb].
  - destruct (ci_eqb x n) eqn:E.
    + exists 0%nat, x. split; [lia|]. split; [reflexivity|]. split; [now apply ci_eqb_iff|]. intros [|j] b Hj Hb; [lia|]. apply IH. eapply nth_error_In; eauto.
    + intros a [->|H]; [intros Q; apply ci_eqb_iff in Q; congruence|auto].
Qed.
Lemma result_last names risks n a : length risks = length names -> In a names -> same_up_to_case a n -> exists v, result_of names risks n = Ok v /\ last_risk names risks n v.
Proof.
  intros L H Q. unfold result_of. pose proof (place_last names 0 n) as P. destruct (place_of names 0 n) as [k|]; [|exfalso; exact (P a H Q)].
  destruct P as (p & b & -> & Hb & Qb & Lb). cbn [Nat.add]. assert (p < length risks)%nat as Hp by (rewrite L; apply nth_error_Some; congruence). destruct (nth_error risks p) as [v|] eqn:E; [|apply nth_error_None in E; lia].
  exists v. split; [unfold get; now rewrite E|]. exists p, b. auto.
Qed.
Lemma last_unique names risks n n' v w : same_up_to_case n n' -> last_risk names risks n v -> last_risk names risks n' w -> v = w.
Proof.
  intros Q (i & a & Ha & Qa & Vi & Li) (j & b & Hb & Qb & Vj & Lj). assert (i = j); [|subst; congruence]. destruct (Nat.lt_trichotomy i j) as [H|[H|H]]; [|exact H|]; exfalso.
  - apply (Li j b H Hb). eapply same_trans; [exact Qb|now apply same_sym].
  - apply (Lj i a H Ha). eapply same_trans; eauto.
Qed.
Lemma report_ok names risks : length risks = length names -> forall l, (forall a, In a l -> In a names) -> exists r, report names risks l = Ok r /\ map fst r = l /\ Forall (fun p => last_risk names risks (fst p) (snd p)) r.
Proof.
  intros L. induction l as [|n l IH]; intros H; cbn [report]; [exists []; auto|]. destruct (result_last names risks n n L (H n (or_introl eq_refl)) (same_refl _)) as (v & -> & Q). cbn [obind].
  destruct IH as (r & -> & E & F); [intros; apply H; now right|]. cbn [obind]. exists ((n, v) :: r). split; [reflexivity|]. split; [cbn [map fst]; congruence|]. constructor; auto.
Qed.
Lemma last_consistent names risks r : Forall (fun p => last_risk names risks (fst p) (snd p)) r -> consistent r.
Proof. intros F a v b w Ha Hb Q. rewrite Forall_forall in F. exact (last_unique _ _ _ _ _ _ Q (F _ Ha) (F _ Hb)). Qed.
Lemma table_shows {T} m k v : msorted m -> (shows (T:=T) (value_table m) k v <-> mfind ci_compare m k = Some v).
Proof.
  intros S0. unfold shows, value_table. split.
  - intros (x & H & Q). apply in_map_iff in H as ([y w] & E & H). cbn [fst snd] in E. assert (y = x) by congruence. assert (w = v) by congruence. subst y w.
    apply (in_mfind ci_compare) with (x := x); try exact ci_compare_antisym; try exact ci_compare_lt_trans; try exact ci_compare_eq_l; auto. now apply ci_compare_eq.
  - intros H. apply (mfind_in ci_compare) in H as (x & H & E). exists x. split; [|now apply ci_compare_eq]. apply in_map_iff. exists (x, v). auto.
Qed.
Lemma table_order {T} m : msorted m -> in_order (T:=T) (value_table m).
Proof.
  intros S0. split; [unfold value_table; rewrite Forall_map; apply Forall_forall; intros [k v] _; cbn [fst snd]; eauto|].
  induction S0 as [|p m S0 IH F]; intros i j a b L Ha Hb; [destruct i; discriminate|]. destruct j as [|j]; [lia|]. unfold value_table in *. cbn [map nth_error] in *. destruct i as [|i]; [|apply (IH i j); auto; lia].
  cbn [nth_error] in Ha. assert (a = [CStr (fst p); CNum (snd p)]) by congruence. subst a. rewrite nth_error_map in Hb. destruct (nth_error m j) as [q|] eqn:E; [|discriminate]. cbn [option_map] in Hb. assert (b = [CStr (fst q); CNum (snd q)]) by congruence. subst b.
  rewrite Forall_forall in F. apply nth_error_In in E. specialize (F q E). unfold below in F. unfold ci_ltb, heading_of. now rewrite F.
Qed.
End Map.

(** * labels *)
Section Labels.
Context {N : Type}.
Variable fixed : N -> str.
Lemma row_labels s : forall times nc, (nc <= length times)%nat -> lvol_row fixed s times nc = Ok (map (lvol fixed s) (firstn nc times)).
Proof. induction times as [|t times IH]; intros [|nc] H; cbn [lvol_row firstn map length] in *; try reflexivity; [lia|]. rewrite IH by lia. reflexivity. Qed.
Lemma all_labels times nc : (nc <= length times)%nat -> forall spots nr, (nr <= length spots)%nat -> lvol_rows fixed spots times nr nc = Ok (flat_map (fun s => map (lvol fixed s) (firstn nc times)) (firstn nr spots)).
Proof.
  intros H. induction spots as [|s spots IH]; intros [|nr] L; cbn [lvol_rows firstn flat_map length] in *; try reflexivity; [lia|]. rewrite row_labels by exact H. cbn [obind]. rewrite IH by lia. reflexivity.
Qed.
Lemma grid_nth {A B C} (f : A -> B -> C) (ys : list B) : forall (xs : list A) i j x y, nth_error xs i = Some x -> nth_error ys j = Some y -> nth_error (flat_map (fun s => map (f s) ys) xs) (i * length ys + j) = Some (f x y).
Proof.
  induction xs as [|s xs IH]; intros i j x y Hx Hy; [destruct i; discriminate|]. assert (j < length ys)%nat as Lj by (apply nth_error_Some; congruence). cbn [flat_map]. destruct i as [|i].
  - cbn [nth_error] in Hx. assert (s = x) by congruence. subst s. cbn [Nat.mul Nat.add]. rewrite nth_error_app1 by (rewrite map_length; exact Lj). now rewrite nth_error_map, Hy.
  - rewrite nth_error_app2 by (rewrite map_length; cbn [Nat.mul]; lia). rewrite map_length. replace (S i * length ys + j - length ys)%nat with (i * length ys + j)%nat by (cbn [Nat.mul]; lia). now apply IH.
Qed.
Lemma grid_inv {A B C} (f : A -> B -> C) (ys : list B) : forall (xs : list A) k c, nth_error (flat_map (fun s => map (f s) ys) xs) k = Some c -> exists i j x y, nth_error xs i = Some x /\ nth_error ys j = Some y /\ k = (i * length ys + j)%nat /\ c = f x y.
Proof.
  induction xs as [|s xs IH]; intros k c H; [destruct k; discriminate|]. cbn [flat_map] in H. destruct (Nat.lt_ge_cases k (length ys)) as [L|L].
  - rewrite nth_error_app1 in H by (rewrite map_length; exact L). rewrite nth_error_map in H. destruct (nth_error ys k) as [y|] eqn:E; [|discriminate]. cbn [option_map] in H. exists 0%nat, k, s, y. split; [reflexivity|]. split; [exact E|]. split; [reflexivity|congruence].
  - rewrite nth_error_app2 in H by (rewrite map_length; exact L). rewrite map_length in H. apply IH in H as (i & j & x & y & Hx & Hy & E & ->). exists (S i), j, x, y. split; [exact Hx|]. split; [exact Hy|]. split; [cbn [Nat.mul]; lia|reflexivity].
Qed.
Lemma space_split a : forall b c d, ~ In " "%char a -> ~ In " "%char c -> same_up_to_case (a ++ " "%char :: b) (c ++ " "%char :: d) -> same_up_to_case a c /\ same_up_to_case b d.
Proof.
  assert (Sp : forall x, same_letter x " "%char -> x = " "%char).
  { intros x H. destruct x as [[] [] [] [] [] [] [] []]; vm_compute in H; try reflexivity; exfalso; try discriminate H; intuition discriminate. }
  assert (Sp' : forall x, same_letter " "%char x -> x = " "%char).
  { intros x H. apply Sp. assert (Q : same_up_to_case [" "%char] [x]) by (constructor; [exact H|constructor]). apply same_sym in Q. inversion Q; subst. assumption. }
  induction a as [|x a IH]; intros b c d Ha Hc H; destruct c as [|y c]; cbn [app] in H; inversion H as [|? ? ? ? Q1 Q2]; subst.
  - split; [constructor|exact Q2].
  - exfalso. apply Hc. left. now apply Sp'.
  - exfalso. apply Ha. left. now apply Sp.
  - destruct (IH b c d) as [A B]; [intros I0; apply Ha; now right|intros I0; apply Hc; now right|exact Q2|]. split; [constructor; assumption|exact B].
Qed.
End Labels.

(** * dates *)
Section Dates.
Context {N T : Type}.
Variables (as_int : N -> outcome Z) (equals_int : N -> Z -> bool).
Lemma entered_read c c' : entered (T:=T) as_int equals_int c c' -> read_date as_int equals_int c' = Ok c.
Proof.
  intros [d|d x H E Q|s]; try reflexivity. unfold read_date. cbn [is_double cell_to_int]. rewrite E. cbn [obind]. rewrite Q. cbn [obind]. do 2 f_equal.
  unfold from_excel, to_excel, u16. destruct (Z.ltb_spec EXCEL_OFFSET (d + EXCEL_OFFSET)); [|lia]. destruct (Z.ltb_spec (d + EXCEL_OFFSET) (EXCEL_OFFSET + 65536)); [|lia]. cbn [andb]. replace (d + EXCEL_OFFSET - EXCEL_OFFSET) with d by lia. apply Z.mod_small; lia.
Qed.
Lemma entered_all l l' : Forall2 (entered (T:=T) as_int equals_int) l l' -> read_dates as_int equals_int l' = Ok l.
Proof. intros F. induction F as [|c c' l l' H F IH]; [reflexivity|]. cbn [read_dates]. rewrite (entered_read c c' H). cbn [obind]. rewrite IH. reflexivity. Qed.
End Dates.

(** * the timeline from different days *)
Section Roll.
Variables (reg : hdata) (combos : list (str * center)).
Context {Number Prog : Type}.
Variables (tokenize : str -> list str) (number : str -> option Number) (parse : omap str Number -> str -> outcome Prog)
  (regex_replace : str -> str -> str -> outcome str) (fuel : nat).
Notation zsorted := (msorted (V:=str) Z.compare).
Lemma event_sorted m d t : zsorted m -> zsorted (add_event m d t).
Proof. intros H. unfold add_event. destruct (mfind Z.compare m d); apply massign_sorted; try exact zc_anti; try exact zc_trans; try exact zc_eq_l; exact H. Qed.
Lemma periods_sorted text l : forall m, zsorted m -> zsorted (add_periods text l m).
Proof. induction l as [|[[s e] f] l IH]; intros m H; cbn [add_periods]; auto using event_sorted. Qed.
Lemma row_sorted a r a' : zsorted (timeline a) -> add_row reg combos tokenize number regex_replace fuel a r = Ok a' -> zsorted (timeline a').
Proof.
  intros H E. destruct r as [d t|desc t]; cbn [add_row] in E.
  - destruct (expand regex_replace (macros a) t); cbn [obind] in E; try discriminate. injection E as <-. now apply event_sorted.
  - destruct (existsb _ desc).
    + destruct (parse_schedule _ _ _ _); cbn [obind] in E; try discriminate. destruct (expand regex_replace (macros a) t); cbn [obind] in E; try discriminate. injection E as <-. now apply periods_sorted.
    + destruct (mfind ci_compare (macros a) desc); [discriminate|]. destruct (mfind ci_compare (consts a) desc); [discriminate|]. destruct (timeline a) eqn:Et; [|discriminate]. destruct (number t); injection E as <-; constructor.
Qed.
Lemma rows_sorted rows : forall a a', zsorted (timeline a) -> add_rows reg combos tokenize number regex_replace fuel a rows = Ok a' -> zsorted (timeline a').
Proof.
  induction rows as [|r rows IH]; intros a a' H E; cbn [add_rows] in E; [injection E as <-; exact H|]. destruct (add_row _ _ _ _ _ _ a r) as [a1| | |] eqn:E1; cbn [obind] in E; try discriminate. apply (IH a1 a'); [now apply (row_sorted a r a1)|exact E].
Qed.
Lemma all_roll cs t1 t2 m : forall past future, zsorted m -> parse_all parse t1 cs m = Ok (past, future) -> exists past' future', parse_all parse t2 cs m = Ok (past', future') /\ past ++ future = past' ++ future'.
Proof.
  clear reg combos tokenize number regex_replace fuel.
  assert (K : forall t m past future d, Forall (below Z.compare (d, [])) m -> t <= d -> parse_all parse t cs m = Ok (past, future) -> past = []).
  { intros t. induction m0 as [|[d1 x] m0 IH]; intros past future d F L E; cbn [parse_all] in E; [congruence|]. destruct (parse cs x); cbn [obind] in E; try discriminate. destruct (parse_all parse t cs m0) as [[p f]| | |] eqn:E1; cbn [obind] in E; try discriminate.
    inversion F as [|? ? F1 F2]; subst. unfold below in F1. cbn [fst] in F1. change (d < d1) in F1. assert (p = []) by (apply (IH p f d F2 L eq_refl)). subst p. destruct (Z.leb_spec t d1); [congruence|lia]. }
  induction m as [|[d x] m IH]; intros past future S0 E; cbn [parse_all] in *; [exists [], []; split; [reflexivity|]; injection E as <- <-; reflexivity|]. apply sorted_inv in S0 as [S0 F].
  assert (F' : Forall (below (V:=str) Z.compare (d, [])) m) by exact F. destruct (parse cs x); cbn [obind] in *; try discriminate. destruct (parse_all parse t1 cs m) as [[p f]| | |] eqn:E1; cbn [obind] in E; try discriminate.
  destruct (IH p f S0 eq_refl) as (p' & f' & E2 & Q). rewrite E2. cbn [obind].
  assert (P1 : t1 <= d -> p = []) by (intros L; eapply K; eauto). assert (P2 : t2 <= d -> p' = []) by (intros L; eapply K; eauto).
  destruct (Z.leb_spec t1 d) as [L1|L1], (Z.leb_spec t2 d) as [L2|L2]; injection E as <- <-; eexists _, _; (split; [reflexivity|]); try (rewrite P1 in * by exact L1); try (rewrite P2 in * by exact L2); cbn [app] in *; congruence.
Qed.
End Roll.

(** * lines *)
Lemma split_lines l : Forall (fun p => ~ In newline p) l -> split (of_lines l) newline true = l.
Proof.
  intros F. induction F as [|p l H F IH]; [reflexivity|]. unfold of_lines in *. cbn [map concat]. unfold line at 1. rewrite <- app_assoc. cbn [app].
  rewrite split_step by (destruct p; discriminate). rewrite cut_app by exact H. cbv zeta. rewrite IH. destruct p; reflexivity.
Qed.
Lemma of_lines_app a b : of_lines (a ++ b) = of_lines a ++ of_lines b.
Proof. unfold of_lines. now rewrite map_app, concat_app. Qed.
Lemma of_lines_cons a b : of_lines (a :: b) = line a ++ of_lines b.
Proof. reflexivity. Qed.
Section Print.
Context {Stmt : Type}.
Variables (show : Stmt -> str) (shown : Stmt -> list str).
Hypothesis Hshow : forall s, show s = of_lines (shown s).
Lemma statements_lines l : forall k, print_statements show k l = of_lines (statement_lines shown k l).
Proof.
  induction l as [|s l IH]; intros k; cbn [print_statements statement_lines]; [reflexivity|]. rewrite IH, of_lines_cons, !of_lines_app, Hshow. f_equal. unfold line at 1. rewrite <- app_assoc. reflexivity.
Qed.
Lemma events_lines l : forall k, print_events show k l = of_lines (event_lines shown k l).
Proof. induction l as [|[d ss] l IH]; intros k; cbn [print_events event_lines]; [reflexivity|]. rewrite IH, of_lines_cons, of_lines_app, statements_lines. reflexivity. Qed.
End Print.

From Verif Require Import DebugModel StackSpec StackProofs.
Fixpoint rest_lines (prefix : str) (l : list tree) : list str :=
  match l with [] => [] | a :: r => (prefix ++ lit ",") :: tree_lines (prefix ++ tab) a ++ rest_lines prefix r end.
Lemma tree_lines_node prefix label args : tree_lines prefix (Node label args) =
  match args with [] => [prefix ++ label] | a :: r => (prefix ++ label ++ lit "(") :: tree_lines (prefix ++ tab) a ++ rest_lines prefix r ++ [prefix ++ lit ")"] end.
Proof.
  destruct args as [|a r]; [reflexivity|]. cbn [tree_lines]. do 3 f_equal.
  match goal with |- ?f r = _ => assert (E : forall l, f l = rest_lines prefix l) end; [|apply E]. induction l as [|x l IH]; [reflexivity|]. cbn [rest_lines]. now rewrite <- IH.
Qed.
Lemma text_lines : forall t prefix, text_of prefix t = of_lines (tree_lines prefix t).
Proof.
  induction t as [label args IH] using tree_ind'. intros prefix. rewrite text_of_node, tree_lines_node. destruct args as [|a r].
  - unfold of_lines. cbn [map concat app]. unfold line. now rewrite app_nil_r, <- app_assoc.
  - rewrite of_lines_cons. unfold line at 1. rewrite <- !app_assoc. do 2 f_equal. inversion IH as [|? ? Ha Hr]; subst. f_equal. change newline with [EventModel.newline]. f_equal. clear IH.
    enough (G : forall b, (forall p, text_of p b = of_lines (tree_lines p b)) -> args_text prefix (b :: r) ++ [EventModel.newline] = of_lines (tree_lines (prefix ++ tab) b ++ rest_lines prefix r ++ [prefix ++ lit ")"])) by (apply G; exact Ha).
    induction Hr as [|c r Hc Hr IHr]; intros b Hb.
    + cbn [args_text rest_lines app]. rewrite of_lines_app, Hb, <- !app_assoc. f_equal. unfold of_lines. cbn [map concat]. unfold line. now rewrite app_nil_r, <- app_assoc.
    + change (args_text prefix (b :: c :: r)) with (text_of (prefix ++ tab) b ++ prefix ++ lit "," ++ newline ++ args_text prefix (c :: r)). cbn [rest_lines]. rewrite of_lines_app, Hb, <- !app_assoc. f_equal.
      cbn [app]. rewrite of_lines_cons. unfold line at 1. rewrite <- !app_assoc. do 2 f_equal. change newline with [EventModel.newline]. f_equal. rewrite IHr by exact Hc. reflexivity.
Qed.
Notation free := (fun p : str => ~ In EventModel.newline p).
Lemma free_app a b : free a -> free b -> free (a ++ b).
Proof. intros A B H. apply in_app_or in H as [H|H]; auto. Qed.
Lemma free_lit s : existsb (Ascii.eqb EventModel.newline) (lit s) = false -> free (lit s).
Proof. intros H I0. assert (E : existsb (Ascii.eqb EventModel.newline) (lit s) = true); [|congruence]. apply existsb_exists. eexists. split; [exact I0|apply Ascii.eqb_refl]. Qed.
Lemma lines_free : forall t prefix, plain t -> free prefix -> Forall free (tree_lines prefix t).
Proof.
  induction t as [label args IH] using tree_ind'. intros prefix P F. rewrite tree_lines_node. cbn [plain] in P. destruct P as (_ & P & Q). change (chr 10) with EventModel.newline in P.
  assert (F' : free (prefix ++ tab)) by (apply free_app; [exact F|intros [H|[]]; discriminate]). destruct args as [|a r].
  - constructor; [now apply free_app|constructor].
  - cbn [fold_right] in Q. destruct Q as [Qa Qr]. inversion IH as [|? ? Ha Hr]; subst. constructor; [repeat apply free_app; auto; now apply free_lit|]. apply Forall_app. split; [now apply Ha|]. apply Forall_app. split; [|constructor; [apply free_app; auto; now apply free_lit|constructor]].
    clear IH Ha Qa. induction Hr as [|c r Hc Hr IHr]; cbn [rest_lines]; [constructor|]. cbn [fold_right] in Qr. destruct Qr as [Qc Qr]. constructor; [apply free_app; auto; now apply free_lit|]. apply Forall_app. split; [now apply Hc|now apply IHr].
Qed.
Lemma show_free z : free (show_int z).
Proof.
  intros H. assert (K : forall u, ~ In EventModel.newline (list_ascii_of_string (NilEmpty.string_of_uint u))) by (induction u; cbn; intuition discriminate).
  assert (K0 : forall u, ~ In EventModel.newline (list_ascii_of_string (NilZero.string_of_uint u))) by (intros []; cbn; try (apply (K u)); intros I0; (destruct I0 as [I0|I0]; [discriminate|]); try (exact (K _ I0)); destruct I0).
  unfold show_int in H. destruct (Z.to_int z); cbn in H; [exact (K0 _ H)|]. destruct H as [H|H]; [discriminate|exact (K0 _ H)].
Qed.
From Verif Require Import DateSpec DateCivil DateProofs.
Lemma digit_free n : 0 <= n <= 9 -> digit n <> EventModel.newline.
Proof.
  intros H E. assert (C : N_of_ascii (digit n) = Z.to_N (48 + n)) by (unfold digit; apply N_ascii_embedding; lia). rewrite E in C. change (N_of_ascii EventModel.newline) with 10%N in C. lia.
Qed.
Lemma date_free d : 1 <= d < 65536 -> free (lit (to_string d)).
Proof.
  intros H. assert (Q : supported (ymd d)) by (eapply civil_supported; [exact (ymd_civil d H)|lia]). unfold to_string. destruct (ymd d) as [[y m] e]. pose proof (supported_year _ _ _ Q) as (Hy & Hm & Hd). pose proof (month_len_range y m).
  intros I0. unfold lit in I0. cbn -[Z.div Z.modulo digit] in I0.
  repeat (destruct I0 as [I0|I0]; [try discriminate I0; revert I0; apply digit_free; Z.div_mod_to_equations; lia|]). exact I0.
Qed.

(** C72: the start-up of the library and the market conventions it sets. *)
From Coq Require Import String Ascii ZArith List Bool Lia.
From Verif Require Import Base StringModel StringSpec StringProofs DateModel HolidayModel HolidaySpec HolidayProofs HolidayRegistry HolidayProps IndexModel SetupModel SetupSpec SetupData SetupProofs.
Import ListNotations.
Local Open Scope Z_scope.

(** A fact about a currency is the last value written for it, or else the last default; without either it is an error. *)
Theorem C72_facts : forall (T : Type) (ws : list (write T)) c, fact_of (written ws) c = meaning ws c.
Proof. intros T. exact fact_meaning. Qed.
Print Assumptions C72_facts.
(** A fact is handed out by reference. The reference keeps the value it had while other values are written ... *)
Theorem C72_reference : forall (T : Type) (ws more : list (write T)) c a, refer (written ws) c = Ok a ->
  (forall w, In w more -> ~ replaces ws c w) -> use (written (ws ++ more)) a = meaning ws c.
Proof. intros T. exact reference_lives. Qed.
Print Assumptions C72_reference.
(** ... and dangles, for good, as soon as the value is replaced. *)
Theorem C72_reference_refuted : forall (T : Type) (ws more : list (write T)) w rest c a, refer (written ws) c = Ok a ->
  (forall x, In x more -> ~ replaces ws c x) -> replaces ws c w -> use (written (ws ++ more ++ w :: rest)) a = UB.
Proof. intros T. exact reference_dies. Qed.
Print Assumptions C72_reference_refuted.
Example C72_facts_example :
  let ws := [ByDefault 2; For CNY 1; For USD 0; ByDefault 3] in
  fact_of (written ws) CNY = Ok 1 /\ fact_of (written ws) EUR = Ok 3 /\ fact_of (written [For CNY 1]) EUR = Throw /\
  refer (written ws) CNY = Ok 1 /\ replaces ws CNY (For CNY 5) /\ ~ replaces ws CNY (ByDefault 5) /\ use (written (ws ++ [ByDefault 5])) 1 = Ok 1 /\
  use (written (ws ++ [For CNY 5])) 1 = UB.
Proof. repeat split; vm_compute; try reflexivity; discriminate. Qed.

(** Whatever was registered or written before, the start-up succeeds unless one of its two calendar names is in use; it adds exactly
    the two calendars, which stay; and it does its work once. *)
Theorem C72_init : forall es, in_range es -> names_free es ->
  snd (init_all (after es)) = Ok tt /\
  (~ In Init es -> hd_list (w_reg (after (es ++ [Init]))) = hd_list (w_reg (after es)) ++ [sse_center; ib_center]) /\
  forall more, in_range more ->
    of_center (w_reg (after (es ++ Init :: more))) sse = Ok sse_center /\ of_center (w_reg (after (es ++ Init :: more))) ib = Ok ib_center.
Proof.
  intros es R F. split; [now apply init_ok|]. split; [now apply init_registry|]. exact (centres es R F).
Qed.
Print Assumptions C72_init.
Theorem C72_init_once : forall es more, in_range es -> snd (init_all (after es)) = Ok tt ->
  init_all (after (es ++ Init :: more)) = (after (es ++ Init :: more), Ok tt).
Proof. exact init_once. Qed.
Print Assumptions C72_init_once.
(** With one of the names in use the start-up fails, now and for ever. *)
Theorem C72_name_taken_refuted : forall es more c, in_range (es ++ more) -> ~ In Init es ->
  of_center (w_reg (after es)) sse = Ok c \/ of_center (w_reg (after es)) ib = Ok c ->
  snd (init_all (after (es ++ more))) = Throw.
Proof.
  intros es more c R N H. apply range_app in R as [R1 R2]. rewrite after_app.
  destruct (winv_after es R1) as [W E]. destruct (no_init_yet es N) as (A & _ & _). pose proof W as (I & _).
  apply stuck; [exact (conj W E)|congruence| |exact R2].
  destruct H as [H|H]; apply (of_center_iff _ _ _ I) in H; [left|right]; now exists c.
Qed.
Print Assumptions C72_name_taken_refuted.
Example C72_init_example :
  let es := [AddCenter (lit "TKY") [19269] []; SetDays (For USD 0); SetFixing (For JPY [Center (lit "TKY") [19269] []])] in
  in_range es /\ names_free es /\ ~ In Init es /\
  (exists c, of_center (w_reg (after [AddCenter (lit "cn.ib") [19269] []])) ib = Ok c) /\ in_range [AddCenter (lit "cn.ib") [19269] []].
Proof.
  cbv zeta. split; [|split; [|split; [|split]]].
  - intros c h k [H|[H|[H|[]]]]; try discriminate. injection H as <- <- <-. split; repeat constructor; discriminate.
  - intros c h k [H|[H|[H|[]]]]; try discriminate. injection H as <- <- <-.
    intros [S|S]; apply same_length in S; vm_compute in S; discriminate.
  - intros [H|[H|[H|[]]]]; discriminate.
  - eexists. vm_compute. reflexivity.
  - intros c h k [H|[]]. injection H as <- <- <-. split; repeat constructor; discriminate.
Qed.

(** The calendars shipped are well formed; neither market is ever closed for more than eleven days; the bond market is open whenever
    the stock exchange is, and otherwise only on 9 February 2024 and on the working weekends. *)
Theorem C72_calendars : good [sse_center; ib_center] /\
  (forall c d, c = sse_center \/ c = ib_center -> exists e, d <= e <= d + 11 /\ business [c] e) /\
  (forall d, business [sse_center] d -> business [ib_center] d) /\
  (forall d, business [ib_center] d -> business [sse_center] d \/ d = mk_date 2024 2 9 \/ In d ib_weekends).
Proof.
  split; [constructor; [exact sse_good|constructor; [exact ib_good|constructor]]|].
  split; [exact open_within|]. split; [exact exchange_open|exact bank_open].
Qed.
Print Assumptions C72_calendars.
Example C72_calendars_example : ~ business [sse_center] (mk_date 2024 2 9) /\ business [ib_center] (mk_date 2024 2 9) /\
  ymd (mk_date 2024 2 9) = (2024, 2, 9) /\ business [ib_center] (mk_date 2025 10 11) /\ ~ business [sse_center] (mk_date 2025 10 11) /\
  (forall d, mk_date 2005 2 5 <= d <= mk_date 2005 2 15 -> ~ business [sse_center] d).
Proof.
  assert (M1 : mk_date 2024 2 9 = 19763) by (vm_compute; reflexivity). assert (M2 : mk_date 2025 10 11 = 20373) by (vm_compute; reflexivity).
  assert (M3 : mk_date 2005 2 5 = 12820 /\ mk_date 2005 2 15 = 12830) by (vm_compute; split; reflexivity). destruct M3 as [M3 M4].
  assert (G1 : good [sse_center]) by (constructor; [exact sse_good|constructor]).
  assert (G2 : good [ib_center]) by (constructor; [exact ib_good|constructor]).
  assert (L1 : bus_test [sse_center] = bus_test [Center sse sse_list []]) by (unfold sse_center; now rewrite sse_eq).
  assert (L2 : bus_test [ib_center] = bus_test [Center ib ib_list ww_list]) by (unfold ib_center; now rewrite ib_eq, ww_eq).
  rewrite M1, M2, M3, M4.
  split; [intros H; apply (bus_test_iff _ 19763 G1 ltac:(lia)) in H; rewrite L1 in H; vm_compute in H; discriminate|].
  split; [apply (bus_test_iff _ 19763 G2 ltac:(lia)); rewrite L2; vm_compute; reflexivity|].
  split; [vm_compute; reflexivity|].
  split; [apply (bus_test_iff _ 20373 G2 ltac:(lia)); rewrite L2; vm_compute; reflexivity|].
  split; [intros H; apply (bus_test_iff _ 20373 G1 ltac:(lia)) in H; rewrite L1 in H; vm_compute in H; discriminate|].
  intros d Hd H. apply (bus_test_iff _ d G1 ltac:(lia)) in H. rewrite L1 in H.
  assert (Q : forallb (fun x => negb (bus_test [Center sse sse_list []] x)) (zrange 12820 11) = true) by (vm_compute; reflexivity).
  rewrite forallb_forall in Q. specialize (Q d ltac:(apply zrange_In; lia)).
  rewrite H in Q. discriminate.
Qed.

(** The conventions after the start-up, whatever is written before and after it. *)
Theorem C72_conventions : forall es more c, in_range es -> names_free es -> ~ In Init es ->
  fact_of (w_days (after (es ++ Init :: more))) c = meaning (days_written es ++ [ByDefault 2; For CNY 1] ++ days_written more) c /\
  fact_of (w_fixing (after (es ++ Init :: more))) c = meaning (fixing_written es ++ [For CNY [ib_center]] ++ fixing_written more) c.
Proof.
  intros es more c R F N. destruct (facts_after es more R F N) as [-> ->]. now rewrite !fact_meaning.
Qed.
Print Assumptions C72_conventions.
(** The period of a Renminbi Libor fixed on any date starts on the next day the bond market is open, at most twelve days later; from
    there the fixing date is found again when it is a business day. *)
Theorem C72_renminbi : forall es more d, in_range es -> names_free es -> ~ In Init es ->
  (forall n, ~ In (For CNY n) (days_written more)) -> (forall h, ~ In (For CNY h) (fixing_written more)) ->
  0 <= d -> d + 12 < 65536 ->
  exists r, libor_start (after (es ++ Init :: more)) CNY d = Ok r /\ nth_after [ib_center] d 1 r /\ r <= d + 12 /\
            (business [ib_center] d -> libor_fixing (after (es ++ Init :: more)) CNY r = Ok d).
Proof.
  intros es more d R F N D H Hd Hm. destruct (cny_conventions es more R F N D H) as [E1 E2].
  destruct (first_open ib_center d (or_intror eq_refl) Hd Hm) as (r & Hr & Hb). exists r.
  assert (G : good [ib_center]) by (constructor; [exact ib_good|constructor]).
  unfold libor_start, libor_fixing. rewrite E1, E2. cbn [obind].
  destruct (n_bus_fwd [ib_center] 1 d r G Hd ltac:(lia) ltac:(lia) Hr) as [_ S].
  split; [exact S|]. split; [exact Hr|]. split; [exact Hb|]. intros B.
  destruct (fwd_back [ib_center] 1 d r G Hd ltac:(lia) ltac:(lia) B Hr) as [_ Q]. rewrite S in Q. exact Q.
Qed.
Print Assumptions C72_renminbi.
(** Every other currency has a number of days but no calendar: its Libor has no start date unless the user supplies one. *)
Theorem C72_other_currencies_refuted : forall es more c d, in_range es -> names_free es -> ~ In Init es -> c <> CNY ->
  fixing_written es = [] -> fixing_written more = [] -> days_written es = [] -> days_written more = [] ->
  fact_of (w_days (after (es ++ Init :: more))) c = Ok 2 /\
  libor_start (after (es ++ Init :: more)) c d = Throw /\ libor_fixing (after (es ++ Init :: more)) c d = Throw.
Proof.
  intros es more c d R F N Hc H1 H2 H3 H4. destruct (C72_conventions es more c R F N) as [E1 E2].
  rewrite H1, H2, H3, H4 in *. cbn [app] in *.
  assert (M : fact_of (w_fixing (after (es ++ Init :: more))) c = Throw).
  { rewrite E2. unfold meaning. cbn [last_for last_default]. destruct (ccy_eq_dec CNY c); [congruence|reflexivity]. }
  unfold libor_start, libor_fixing. rewrite M. split; [|split; reflexivity].
  rewrite E1. unfold meaning. cbn [last_for last_default]. destruct (ccy_eq_dec CNY c); [congruence|reflexivity].
Qed.
Print Assumptions C72_other_currencies_refuted.
Example C72_libor_example :
  let w := after [Init; SetDays (ByDefault 0)] in
  libor_start w CNY (mk_date 2025 9 30) = Ok (mk_date 2025 10 9) /\ libor_fixing w CNY (mk_date 2025 10 9) = Ok (mk_date 2025 9 30) /\
  (forall n, ~ In (For CNY n) (days_written [SetDays (ByDefault 0)])) /\ in_range [] /\ names_free [].
Proof.
  cbv zeta. assert (Q1 : in_range []) by (intros ? ? ? []). assert (Q2 : names_free []) by (intros ? ? ? []).
  assert (Q3 : forall n, ~ In (For CNY n) (days_written [SetDays (ByDefault 0)])) by (intros n [H|[]]; discriminate).
  destruct (cny_conventions [] [SetDays (ByDefault 0)] Q1 Q2 (fun H => H) Q3 (fun _ H => H)) as [E1 E2].
  unfold libor_start, libor_fixing. cbn [app] in E1, E2. rewrite E1, E2. cbn [obind]. unfold ib_center. rewrite ib_eq, ww_eq.
  assert (M1 : mk_date 2025 9 30 = 20362) by (vm_compute; reflexivity). assert (M2 : mk_date 2025 10 9 = 20371) by (vm_compute; reflexivity). rewrite M1, M2.
  split; [vm_compute; reflexivity|]. split; [vm_compute; reflexivity|].
  split; [exact Q3|]. now split.
Qed.

(** C08: schedule generation, and the text form of increments. *)
From Coq Require Import String Ascii ZArith List Bool Lia ZifyBool Sorted.
From Verif Require Import Base DateModel DateSpec DateProofs StringModel StringSpec StringProofs
  HolidayModel HolidaySpec HolidayProofs HolidayRoll ScheduleModel ScheduleSpec ScheduleProofs.
Import ListNotations.
Open Scope Z_scope.

(** For any tenor that moves strictly forward between the two dates, generating forward ends within
    [maturity - start] turns with: start, then each date one tenor after the one before as long as it does not pass the
    maturity, then the maturity itself; strictly increasing. *)
Theorem C08_forward tenor fuel start maturity : start <= maturity -> advances (tenor true) start maturity ->
  maturity - start < Z.of_nat fuel ->
  exists l, date_generate fuel start maturity tenor Forward = Ok l /\ forward_schedule (tenor true) start maturity l /\
    StronglySorted Z.lt l /\ hd 0 l = start /\ last l 0 = maturity /\ Forall (fun d => start <= d <= maturity) l.
Proof. exact (generate_forward tenor fuel start maturity). Qed.
Print Assumptions C08_forward.
Theorem C08_backward tenor fuel start maturity : start <= maturity -> retreats (tenor false) start maturity ->
  maturity - start < Z.of_nat fuel ->
  exists l, date_generate fuel start maturity tenor Backward = Ok l /\ backward_schedule (tenor false) start maturity l /\
    StronglySorted Z.lt l /\ hd 0 l = start /\ last l 0 = maturity /\ Forall (fun d => start <= d <= maturity) l.
Proof. exact (generate_backward tenor fuel start maturity). Qed.
Print Assumptions C08_backward.

(** ** Which tenors qualify *)
Theorem C08_day_tenor_advances n h a b : good h -> 1 <= n -> 0 <= a -> b + n < 65536 ->
  (hols_neqb h hols_none = true -> exists x, b + n <= x < 65536 /\ business h x) ->
  advances (apply_inc (Multi n SCD h) true) a b.
Proof. exact (days_advance n h a b). Qed.
Print Assumptions C08_day_tenor_advances.
Theorem C08_week_tenor_advances n h a b : good h -> 1 <= n -> 0 <= a -> b + 7 * n < 65536 ->
  (hols_neqb h hols_none = true -> exists x, b + 7 * n <= x < 65536 /\ business h x) ->
  advances (apply_inc (Multi n SW h) true) a b.
Proof. exact (weeks_advance n h a b). Qed.
Print Assumptions C08_week_tenor_advances.
(** month (k = 1) and year (k = 12) tenors, while every month passed through can be built (C01, C03) *)
Theorem C08_month_tenor_advances n k h a b y1 m1 d1 y2 m2 d2 : good h -> 1 <= n -> 1 <= a <= b -> b < 65536 ->
  ymd a = (y1, m1, d1) -> ymd b = (y2, m2, d2) -> k = 1 \/ k = 12 -> n * k <= 3000 ->
  good_months (month_index y1 m1) (month_index y2 m2 + n * k) ->
  (hols_neqb h hols_none = true -> forall d, a <= d <= b -> exists x, add_months d (n * k) false <= x < 65536 /\ business h x) ->
  advances (apply_inc (Multi n (if k =? 1 then SM else SY) h) true) a b.
Proof. exact (months_advance n k h a b y1 m1 d1 y2 m2 d2). Qed.
Print Assumptions C08_month_tenor_advances.
Theorem C08_day_tenor_retreats n a b : 1 <= n -> n <= a -> b < 65536 -> retreats (apply_inc (Multi n SCD hols_none) false) a b.
Proof. exact (days_retreat n a b). Qed.
Print Assumptions C08_day_tenor_retreats.
Theorem C08_week_tenor_retreats n a b : 1 <= n -> 7 * n <= a -> b < 65536 -> retreats (apply_inc (Multi n SW hols_none) false) a b.
Proof. exact (weeks_retreat n a b). Qed.
Print Assumptions C08_week_tenor_retreats.
Theorem C08_month_tenor_retreats n k a b y1 m1 d1 y2 m2 d2 : 1 <= n -> 1 <= a <= b -> b < 65536 ->
  ymd a = (y1, m1, d1) -> ymd b = (y2, m2, d2) -> k = 1 \/ k = 12 -> n * k <= 3000 ->
  good_months (month_index y1 m1 - n * k) (month_index y2 m2) ->
  retreats (apply_inc (Multi n (if k =? 1 then SM else SY) hols_none) false) a b.
Proof. exact (months_retreat n k a b y1 m1 d1 y2 m2 d2). Qed.
Print Assumptions C08_month_tenor_retreats.

Example C08_month_example : (* quarterly from 2000-01-31 to 2001-02-15 *)
  ymd 10988 = (2000, 1, 31) /\ ymd 11369 = (2001, 2, 15) /\
  good_months (month_index 2000 1) (month_index 2001 2 + 3 * 1) /\ good_months (month_index 2000 1 - 3 * 1) (month_index 2001 2).
Proof.
  split; [vm_compute; reflexivity|]. split; [vm_compute; reflexivity|].
  split; intros y m Hm Hi; unfold good_month, month_index in *; lia.
Qed.
Example C08_month_dates :
  date_generate 400 10988 11369 (apply_inc (Multi 3 SM hols_none)) Forward = Ok [10988; 11078; 11169; 11261; 11353; 11369] /\
  date_generate 400 10988 11369 (apply_inc (Multi 3 SM hols_none)) Backward = Ok [10988; 11003; 11093; 11185; 11277; 11369].
Proof. split; vm_compute; reflexivity. Qed.
Example C08_forward_example : exists l, date_generate 400 10988 11369 (apply_inc (Multi 3 SM hols_none)) Forward = Ok l /\
  hd 0 l = 10988 /\ last l 0 = 11369.
Proof.
  destruct (C08_forward (apply_inc (Multi 3 SM hols_none)) 400 10988 11369) as (l & E & _ & _ & H1 & H2 & _); [lia| |lia|eauto].
  destruct C08_month_example as (E1 & E2 & Hg & _).
  apply (C08_month_tenor_advances 3 1 hols_none 10988 11369 _ _ _ _ _ _ ltac:(constructor) ltac:(lia) ltac:(lia) ltac:(lia) E1 E2 ltac:(auto) ltac:(lia) Hg).
  discriminate.
Qed.
Example C08_backward_example : exists l, date_generate 400 10988 11369 (apply_inc (Multi 3 SM hols_none)) Backward = Ok l /\
  hd 0 l = 10988 /\ last l 0 = 11369.
Proof.
  destruct (C08_backward (apply_inc (Multi 3 SM hols_none)) 400 10988 11369) as (l & E & _ & _ & H1 & H2 & _); [lia| |lia|eauto].
  destruct C08_month_example as (E1 & E2 & _ & Hg).
  exact (C08_month_tenor_retreats 3 1 10988 11369 _ _ _ _ _ _ ltac:(lia) ltac:(lia) ltac:(lia) E1 E2 ltac:(auto) ltac:(lia) Hg).
Qed.
Example C08_day_example : advances (apply_inc (Multi 10 SCD hols_none) true) 10988 11369 /\ retreats (apply_inc (Multi 10 SCD hols_none) false) 10988 11369
  /\ advances (apply_inc (Multi 2 SW hols_none) true) 10988 11369 /\ retreats (apply_inc (Multi 2 SW hols_none) false) 10988 11369.
Proof.
  repeat split; [apply C08_day_tenor_advances|apply C08_day_tenor_retreats|apply C08_week_tenor_advances|apply C08_week_tenor_retreats];
    try lia; try discriminate; constructor.
Qed.

(** ** Adjusted schedules *)
(** With the following convention: strictly increasing, exactly the dates the unadjusted ones roll to (the first
    business day on or after each), from the rolled start to the rolled maturity. *)
Theorem C08_following fuel start maturity h tenor g l : good h -> Forall (fun d => 0 <= d < 65536) l -> l <> [] ->
  date_generate fuel start maturity tenor g = Ok l ->
  (forall d, In d l -> exists x, d <= x < 65536 /\ business h x) ->
  exists s, make_schedule fuel start maturity h tenor g Following = Ok s /\ StronglySorted Z.lt s /\
    (forall d, In d s <-> exists p, In p l /\ rolls_to h p d).
Proof. exact (make_following fuel start maturity h tenor g l). Qed.
Print Assumptions C08_following.
Theorem C08_following_ends l s h a b p q : StronglySorted Z.lt l -> hd 0 l = p -> last l 0 = q -> l <> [] ->
  StronglySorted Z.lt s -> (forall d, In d s <-> exists x, In x l /\ rolls_to h x d) -> rolls_to h p a -> rolls_to h q b ->
  hd 0 s = a /\ last s 0 = b.
Proof. exact (following_ends l s h a b p q). Qed.
Print Assumptions C08_following_ends.
Theorem C08_unadjusted fuel start maturity h tenor g l : date_generate fuel start maturity tenor g = Ok l -> StronglySorted Z.lt l ->
  make_schedule fuel start maturity h tenor g Unadjusted = Ok l.
Proof. exact (make_unadjusted fuel start maturity h tenor g l). Qed.
Print Assumptions C08_unadjusted.
Example C08_following_example : (* 2021-12-30 .. 2022-01-02 (a Sunday) by days: the weekend collapses into Monday *)
  make_schedule 10 18992 18995 [Center [] [] []] (apply_inc (Multi 1 SCD hols_none)) Forward Following = Ok [18992; 18993; 18996] /\
  make_schedule 10 18992 18995 [Center [] [] []] (apply_inc (Multi 1 SCD hols_none)) Forward Unadjusted = Ok [18992; 18993; 18994; 18995].
Proof. split; vm_compute; reflexivity. Qed.
Example C08_following_hyps : good [Center [] [] []] /\ business [Center [] [] []] 18996.
Proof.
  split; [repeat constructor|]. split; [intros (c & [<-|[]] & [])|]. left. unfold weekend, weekday. vm_compute. intuition discriminate.
Qed.

(** ** Where generation never ends, or is wrong *)
(** a zero tenor never ends *)
Theorem C08_zero_tenor_refuted start maturity : 0 <= start <= maturity -> maturity < 65536 ->
  forall fuel, date_generate fuel start maturity (apply_inc (Multi 0 SCD hols_none)) Forward = OutOfFuel.
Proof.
  intros Hs Hm. apply (forward_diverges (fun d => d = start)); [reflexivity|]. intros d ->. exists start.
  cbn [apply_inc]. unfold step. cbn [obind]. change (hols_neqb hols_none hols_none) with false. cbv iota.
  rewrite add_days_in by lia. rewrite Z.add_0_r. repeat split; lia.
Qed.
Print Assumptions C08_zero_tenor_refuted.
(** the text "&" is accepted as an increment that does nothing, with the same effect *)
Theorem C08_empty_compound_refuted reg combos start maturity : start <= maturity ->
  parse_increment reg combos (lit "&") = Ok (Compound []) /\
  forall fuel, date_generate fuel start maturity (apply_inc (Compound [])) Forward = OutOfFuel.
Proof.
  intros Hs. split; [reflexivity|]. apply (forward_diverges (fun d => d = start)); [reflexivity|]. intros d ->. exists start. repeat split. lia.
Qed.
Print Assumptions C08_empty_compound_refuted.
(** "EOM" from a month end stays there *)
Theorem C08_eom_refuted : ymd 18992 = (2021, 12, 30) /\ ymd 18993 = (2021, 12, 31) /\
  forall fuel, date_generate fuel 18993 19358 (apply_inc (Special EOM)) Forward = OutOfFuel.
Proof.
  split; [vm_compute; reflexivity|]. split; [vm_compute; reflexivity|].
  apply (forward_diverges (fun d => d = 18993)); [reflexivity|]. intros d ->. exists 18993. split; [vm_compute; reflexivity|]. split; [reflexivity|lia].
Qed.
Print Assumptions C08_eom_refuted.
(** stepping past the last representable date wraps round to the beginning *)
Theorem C08_wrap_refuted start : 0 <= start < 65536 ->
  forall fuel, date_generate fuel start 65535 (apply_inc (Multi 1 SCD hols_none)) Forward = OutOfFuel.
Proof.
  intros Hs. apply (forward_diverges (fun d => 0 <= d < 65536)); [assumption|]. intros d Hd.
  cbn [apply_inc]. unfold step. cbn [obind]. change (hols_neqb hols_none hols_none) with false. cbv iota.
  eexists. split; [reflexivity|]. unfold add_days, u16. pose proof (Z.mod_pos_bound (d + 1 * 1) 65536 ltac:(lia)). lia.
Qed.
Print Assumptions C08_wrap_refuted.
(** generating backward across the first representable date gives a date far beyond the maturity *)
Theorem C08_backward_wrap_refuted :
  date_generate 10 1 6 (apply_inc (Multi 32771 SCD hols_none)) Backward = Ok [1; 32771; 6].
Proof. vm_compute. reflexivity. Qed.
Print Assumptions C08_backward_wrap_refuted.
(** the modified-following convention is rejected, whatever the dates *)
Theorem C08_modified_following_refuted fuel start maturity h tenor g l : l <> [] ->
  date_generate fuel start maturity tenor g = Ok l -> make_schedule fuel start maturity h tenor g ModifiedFollowing = Throw.
Proof. intros Hne E. unfold make_schedule. rewrite E. cbn [obind]. destruct l; [congruence|]. reflexivity. Qed.
Print Assumptions C08_modified_following_refuted.

(** ** Text of increments *)
(** digits followed by a unit name (any case; blanks, tabs and underscores ignored) denote that many units *)
Theorem C08_increment_text reg combos num n unit t name sz : decimal num n -> num <> [] -> n <= 2147483647 ->
  ascii_only unit -> strip unit t -> In (name, sz) step_size_names -> same_up_to_case t (lit name) ->
  parse_increment reg combos (num ++ unit) = Ok (Multi n sz hols_none).
Proof. exact (parse_steps reg combos num n unit t name sz). Qed.
Print Assumptions C08_increment_text.
Theorem C08_special_text reg combos src t name sp : ascii_only src -> strip src t -> In (name, sp) special_names ->
  same_up_to_case t (lit name) -> parse_increment reg combos src = Ok (Special sp).
Proof. exact (parse_special reg combos src t name sp). Qed.
Print Assumptions C08_special_text.
Example C08_text_example reg combos : parse_increment reg combos (lit "18 Months") = Ok (Multi 18 SM hols_none) /\
  parse_increment reg combos (lit "imm_1") = Ok (Special IMM1) /\ parse_increment reg combos (lit "2W&1BD") = Ok (Compound [Multi 2 SW hols_none; Multi 1 SBD hols_none]).
Proof. repeat split. Qed.
Example C08_text_hyps : decimal (lit "18") 18 /\ ascii_only (lit " Months") /\ strip (lit " Months") (lit "Months") /\
  In ("MONTHS"%string, SM) step_size_names /\ same_up_to_case (lit "Months") (lit "MONTHS").
Proof.
  split; [apply (decimal_snoc ["1"%char] 1 "8"%char); [apply (decimal_snoc [] 0 "1"%char); [constructor|]|]; vm_compute; split; discriminate|].
  split; [repeat constructor|]. split.
  { cbn. apply strip_skip; [left; reflexivity|]. repeat (apply strip_keep; [intros [H|[H|H]]; discriminate|]). constructor. }
  split; [cbn; auto 10|]. apply ci_eqb_iff. reflexivity.
Qed.

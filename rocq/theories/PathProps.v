(** Property C45: answers from a history of fixings. *)
From Coq Require Import ZArith List Bool Reals Lra Lia Floats.SpecFloat.
From Verif Require Import Base OMap DateModel DateTimeModel PathModel PathSpec PathProofs.
Import ListNotations.
Local Open Scope R_scope.
Ltac Zify.zify_post_hook ::= Z.div_mod_to_equations.

Section Exact.
Implicit Types f : list ((Z * R) * R).
Definition times_ok f : Prop := Forall (fun p => good_time (fst p)) f.

(** The range probability of a recorded fixing is between 0 and 1 whatever the range and the ramp; it is 1 inside the range and 0
    beyond the range plus the ramp; in between it falls linearly with the distance to the range. Without a fixing the call throws. *)
Theorem C45_range_prob f t lo hi w : times_ok f -> good_time t ->
  match fixed_at f (moment t) with
  | None => fix_in_range (A := RealArith) f t lo hi w = Throw
  | Some x => exists p, fix_in_range (A := RealArith) f t lo hi w = Ok p /\ 0 <= p <= 1 /\
      (lo <= x <= hi -> p = 1) /\
      (lo <= hi -> 0 <= w -> x < lo - w \/ x > hi + w -> p = 0) /\
      (lo <= hi -> 0 < w -> p = Rmax 0 (1 - outside lo hi x / w)) /\
      (w = 0 -> p = if Rle_dec lo x then if Rle_dec x hi then 1 else 0 else 0)
  end.
Proof.
  intros Hf Ht. unfold fix_in_range. rewrite (find_fix_at f t Hf Ht). destruct (fixed_at f (moment t)) as [x|]; [|reflexivity].
  exists (R_ramp lo hi w x). split; [reflexivity|]. split; [apply ramp_bounds|]. split; [apply ramp_inside|]. split; [apply ramp_outside|]. split; [apply ramp_value|].
  intros ->. apply ramp_indicator.
Qed.
(** It is continuous in the fixing: two histories that differ by d at that time give probabilities that differ by at most d / ramp. *)
Theorem C45_continuous f f' t lo hi w x x' : times_ok f -> times_ok f' -> good_time t -> lo <= hi -> 0 < w ->
  fixed_at f (moment t) = Some x -> fixed_at f' (moment t) = Some x' ->
  exists p p', fix_in_range (A := RealArith) f t lo hi w = Ok p /\ fix_in_range (A := RealArith) f' t lo hi w = Ok p' /\ Rabs (p - p') <= Rabs (x - x') / w.
Proof.
  intros Hf Hf' Ht Hr Hw E E'. exists (R_ramp lo hi w x), (R_ramp lo hi w x'). unfold fix_in_range. rewrite (find_fix_at f t Hf Ht), (find_fix_at f' t Hf' Ht), E, E'.
  split; [reflexivity|]. split; [reflexivity|]. now apply ramp_lip.
Qed.
(** The collared value of a fixing stays within the collar and is the fixing itself when that lies inside. *)
Theorem C45_expectation f t lo hi : times_ok f -> good_time t ->
  match fixed_at f (moment t) with
  | None => expectation (A := RealArith) f t lo hi = Throw
  | Some x => exists v, expectation (A := RealArith) f t lo hi = Ok v /\ (lo <= hi -> lo <= v <= hi) /\
      (lo <= x <= hi -> v = x) /\ (lo <= hi -> x < lo -> v = lo) /\ (lo <= hi -> hi < x -> v = hi)
  end.
Proof.
  intros Hf Ht. unfold expectation. rewrite (find_fix_at f t Hf Ht). destruct (fixed_at f (moment t)) as [x|]; [|reflexivity].
  eexists. split; [reflexivity|]. unfold std_max, std_min. cbn. destruct (Rlt_dec x hi).
  - destruct (Rlt_dec lo x); repeat split; intros; lra.
  - destruct (Rlt_dec lo hi); repeat split; intros; lra.
Qed.
(** Monitoring a range: the answer is the product, over the monitoring times from + i * interval before the end at which there is a
    fixing, of the range probabilities; the loop ends; the answer is between 0 and 1. *)
Theorem C45_all_in_range f from to lo hi h w : times_ok f -> good_time from -> good_time to -> 0 < h -> moment to + h <= 65536 ->
  exists n : nat, (forall i, (i < n)%nat <-> moment from + INR i * h < moment to) /\
  forall fuel, (n < fuel)%nat ->
  exists p, all_in_range (A := RealArith) fuel f from to lo hi h w = Ok p /\ 0 <= p <= 1 /\
    (lo <= hi -> 0 < w -> p = product (fun x => Rmax 0 (1 - outside lo hi x / w)) f (moment from) h n) /\
    (w = 0 -> p = product (fun x => if Rle_dec lo x then if Rle_dec x hi then 1 else 0 else 0) f (moment from) h n).
Proof.
  intros Hf H1 H2 Hh Hend. destruct (grid_count (moment from) (moment to) h Hh) as (n & Hn). exists n. split; [exact Hn|]. intros fuel Hfu.
  exists (product (R_ramp lo hi w) f (moment from) h n). unfold all_in_range. rewrite (loop_value f to lo hi h w Hf H2 Hh Hend n fuel from _ H1 Hfu Hn).
  split; [apply f_equal; cbn; ring|]. split; [apply product_bounds; intros x; apply ramp_bounds|].
  assert (forall p q : R -> R, (forall x, p x = q x) -> forall n s, product p f s h n = product q f s h n) as Ext.
  { clear. intros p q H. induction n as [|n IH]; intros s; cbn [product]; [reflexivity|]. rewrite IH. destruct (fixed_at f s); [now rewrite H|reflexivity]. }
  split; [intros Hr Hw; apply Ext; intros x; now apply ramp_value|]. intros ->. apply Ext. intros x. apply ramp_indicator.
Qed.
(** An interval that is not positive is refused as soon as there is anything to monitor. *)
Theorem C45_interval f from to lo hi h w fuel : good_time from -> good_time to -> moment from < moment to -> h <= 0 ->
  all_in_range (A := RealArith) (S fuel) f from to lo hi h w = Throw.
Proof.
  intros H1 H2 L Hh. unfold all_in_range. cbn [all_in_range_loop]. assert (dt_ltb (A := RealArith) from to = true) as -> by now apply dt_ltb_true.
  assert (dt_plus (A := RealArith) from h = Throw) as E. { unfold dt_plus. replace (nltb (Arith := RealArith) (of_Z 0) h) with false; [reflexivity|]. symmetry. now apply nltb_false. }
  unfold fix_in_range. rewrite E. now destruct (find_fix (A := RealArith) f from).
Qed.
End Exact.

(** Three fixings, 100, 103 and 107, on successive days; range 95 to 105 with a ramp of 4. *)
Definition history : list ((Z * R) * R) := [((10%Z, 0), 100); ((11%Z, 0), 103); ((12%Z, 0), 107)].
Lemma history_ok : times_ok history.
Proof. repeat constructor; cbn [fst snd]; try lia; lra. Qed.
Lemma history_at : fixed_at history 10 = Some 100 /\ fixed_at history 11 = Some 103 /\ fixed_at history 12 = Some 107.
Proof.
  unfold history. cbn [fixed_at]. unfold moment. cbn [fst snd]. repeat split;
  repeat match goal with |- context [Req_EM_T ?a ?b] => destruct (Req_EM_T a b) as [?E|?E]; [try (exfalso; lra)|try (exfalso; apply E; lra)] end; reflexivity.
Qed.
Example C45_range_prob_ex : fix_in_range (A := RealArith) history (12%Z, 0) 95 105 4 = Ok (1 / 2) /\ expectation (A := RealArith) history (12%Z, 0) 95 105 = Ok 105.
Proof.
  assert (good_time (12%Z, 0)) as G by (split; cbn; [lia|lra]).
  assert (moment (12%Z, 0) = 12) as M by (unfold moment; cbn [fst snd]; lra). destruct history_at as (_ & _ & H3).
  pose proof (C45_range_prob history (12%Z, 0) 95 105 4 history_ok G) as H. pose proof (C45_expectation history (12%Z, 0) 95 105 history_ok G) as H'. rewrite M, H3 in H, H'.
  destruct H as (p & E & _ & _ & _ & V & _). destruct H' as (v & E' & _ & _ & _ & V'). split.
  - rewrite E, V by lra. f_equal. unfold outside. rewrite (Rmax_right (95 - 107)) by lra. rewrite (Rmax_right 0 (107 - 105)) by lra. rewrite Rmax_right; lra.
  - rewrite E', V' by lra. reflexivity.
Qed.
Example C45_all_in_range_ex : exists n : nat, forall fuel, (n < fuel)%nat -> all_in_range (A := RealArith) fuel history (10%Z, 0) (13%Z, 0) 95 105 1 4 = Ok (1 / 2).
Proof.
  assert (forall z, (0 <= z < 100)%Z -> good_time (z, 0)) as G by (intros z Hz; split; cbn [fst snd]; [lia|lra]).
  assert (forall z, moment (z, 0) = IZR z) as M by (intros z; unfold moment; cbn [fst snd]; lra).
  destruct (C45_all_in_range history (10%Z, 0) (13%Z, 0) 95 105 1 4 history_ok (G 10%Z ltac:(lia)) (G 13%Z ltac:(lia)) ltac:(lra) ltac:(rewrite M; lra)) as (n & Hn & H).
  exists n. intros fuel Hf. destruct (H fuel Hf) as (p & E & _ & V & _). rewrite E, V by lra. rewrite !M in *. f_equal.
  assert (n = 3)%nat as ->.
  { assert (2 < n)%nat by (apply Hn; cbn [INR]; lra). assert (~ (3 < n)%nat) by (rewrite Hn; cbn [INR]; lra). lia. }
  cbn [product]. replace (10 + 1) with 11 by ring. replace (11 + 1) with 12 by ring. destruct history_at as (-> & -> & ->). unfold outside.
  rewrite (Rmax_left (95 - 100) (100 - 105)) by lra. rewrite (Rmax_right (95 - 103) (103 - 105)) by lra. rewrite (Rmax_right (95 - 107) (107 - 105)) by lra.
  rewrite (Rmax_left 0 (95 - 100)) by lra. rewrite (Rmax_left 0 (103 - 105)) by lra. rewrite (Rmax_right 0 (107 - 105)) by lra.
  rewrite !Rmax_right by lra. field.
Qed.

(** In binary64 a probability can be negative: range from 0.66, ramp 0.16, fixing 0.5. *)
Theorem C45_negative_refuted : exists t lo hi w x p, fix_in_range (A := FloatArith) [(t, x)] t lo hi w = Ok p /\
  SFltb (fl_of_Z 0) w = true /\ SFltb lo hi = true /\ SFltb p (fl_of_Z 0) = true.
Proof. exists (100%Z, fl_of_Z 0), (fl_lit 66 100), (fl_of_Z 1), (fl_lit 16 100), (fl_lit 1 2). eexists. split; [vm_compute; reflexivity|]. split; [vm_compute; reflexivity|]. split; vm_compute; reflexivity. Qed.
Print Assumptions C45_negative_refuted.
(** Hourly monitoring misses the fixing of five o'clock: the sum of five times 1/24 is not the double 18000/86400. A fixing far outside the
    range is recorded at a monitoring time, yet the answer is 1. *)
Theorem C45_hourly_refuted : exists five six p,
  mk_hms (A := FloatArith) 100 5 0 0 = Ok five /\ mk_hms (A := FloatArith) 100 6 0 0 = Ok six /\
  all_in_range (A := FloatArith) 100 [(five, fl_of_Z 1000)] (100%Z, fl_of_Z 0) six (fl_of_Z 0) (fl_of_Z 1) (fl_lit 1 24) (fl_of_Z 0) = Ok p /\ p = fl_of_Z 1 /\
  fix_in_range (A := FloatArith) [(five, fl_of_Z 1000)] five (fl_of_Z 0) (fl_of_Z 1) (fl_of_Z 0) = Ok (fl_of_Z 0).
Proof. eexists. eexists. eexists. split; [vm_compute; reflexivity|]. split; [vm_compute; reflexivity|]. split; [vm_compute; reflexivity|]. split; vm_compute; reflexivity. Qed.
(** A positive interval too small to change the time of day never ends. *)
Theorem C45_tiny_refuted : exists h, SFltb (fl_of_Z 0) h = true /\ forall fuel f lo hi w,
  all_in_range (A := FloatArith) fuel f (100%Z, fl_lit 1 2) (101%Z, fl_of_Z 0) lo hi h w = OutOfFuel.
Proof.
  exists (fl_lit 1 100000000000000000). split; [vm_compute; reflexivity|]. intros fuel f lo hi w. unfold all_in_range. generalize (of_Z (Arith := FloatArith) 1).
  assert (dt_plus (A := FloatArith) (100%Z, fl_lit 1 2) (fl_lit 1 100000000000000000) = Ok (100%Z, fl_lit 1 2)) as E by (vm_compute; reflexivity).
  assert (dt_ltb (A := FloatArith) (100%Z, fl_lit 1 2) (101%Z, fl_of_Z 0) = true) as E' by (vm_compute; reflexivity).
  revert E E'. generalize (100%Z, fl_lit 1 2) as t. generalize (fl_lit 1 100000000000000000) as h. intros h t E E'.
  induction fuel as [|fuel IH]; intros p; cbn [all_in_range_loop]; [reflexivity|]. rewrite E'. unfold fix_in_range. destruct (find_fix (A := FloatArith) f t); cbn [obind]; rewrite E; apply IH.
Qed.
Print Assumptions C45_tiny_refuted.
(** Near the last representable date the date wraps round and the loop never ends, even in exact arithmetic. *)
Theorem C45_wrap_refuted fuel f lo hi w : all_in_range (A := RealArith) fuel f (65530%Z, 0) (65535%Z, 0) lo hi 10 w = OutOfFuel.
Proof.
  unfold all_in_range. generalize (of_Z (Arith := RealArith) 1). assert (exists k, 65530 = 2 * k)%Z as Hk by (exists 32765%Z; reflexivity). assert (0 <= 65530 < 65536)%Z as Hd by lia.
  revert Hk Hd. generalize 65530%Z as d. induction fuel as [|fuel IH]; intros d [k Hk] Hd p; cbn [all_in_range_loop]; [reflexivity|].
  assert (dt_ltb (A := RealArith) (d, 0) (65535%Z, 0) = true) as ->. { unfold dt_ltb, date_ltb. cbn [fst]. assert (d <? 65535 = true)%Z as -> by (apply Z.ltb_lt; lia). reflexivity. }
  assert (dt_plus (A := RealArith) (d, 0) 10 = Ok (add_days d 10, 0)) as E.
  { unfold dt_plus. cbn [fst snd]. assert (nltb (Arith := RealArith) (of_Z 0) 10 = true) as -> by (apply nltb_true; cbn; lra). cbn [negb].
    change (to_int (Arith := RealArith) (nadd (Arith := RealArith) 0 10)) with (as_int (Int_part (0 + 10))). rewrite (Int_part_eq _ 10) by lra. cbn [as_int obind]. change (0 <? 10)%Z with true. cbv iota. unfold as_int. change (int_range 10) with true. cbv iota beta. cbn [obind]. change (0 <? 10)%Z with true. cbv iota. f_equal. f_equal. cbn. lra. }
  unfold fix_in_range. destruct (find_fix (A := RealArith) f (d, 0)); cbn [obind]; rewrite E; cbn [obind]; apply IH.
  - unfold add_days, u16. exists ((2 * k + 10 mod 65536) mod 65536 / 2)%Z. lia.
  - unfold add_days, u16. lia.
  - unfold add_days, u16. exists ((2 * k + 10 mod 65536) mod 65536 / 2)%Z. lia.
  - unfold add_days, u16. lia.
Qed.
(** The running maximum is not computed: with every fixing at 103 and a collar of 95 to 105 the answer is 105. *)
Theorem C45_extremum_refuted : extremum (A := FloatArith) 10 [((10%Z, fl_of_Z 0), fl_of_Z 103)] true (10%Z, fl_of_Z 0) (11%Z, fl_of_Z 0) (fl_of_Z 1) (fl_of_Z 95) (fl_of_Z 105) = Ok (fl_of_Z 105).
Proof. vm_compute. reflexivity. Qed.
Print Assumptions C45_extremum_refuted.
Print Assumptions C45_range_prob.
Print Assumptions C45_continuous.
Print Assumptions C45_expectation.
Print Assumptions C45_all_in_range.
Print Assumptions C45_interval.
Print Assumptions C45_hourly_refuted.
Print Assumptions C45_wrap_refuted.

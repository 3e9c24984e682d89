(** C52: a simulated path has one sample per product date, in order, each with its own numeraire, and uses each draw once. *)
From Coq Require Import Reals List Arith Bool Lra Lia.
From Verif Require Import Base Vec BsModel BsSpec BsProofs.
Import ListNotations.
Local Open Scope R_scope.

(** For every model with a positive spot, increasing product dates from today on, whatever the model was used for
    before: the path is filled without reading or writing out of range; sample i has the Black-Scholes spot at product
    date i and, if asked for, the numeraire of that date; there is one draw for each date after today. *)
Theorem C52_path m st times defs gauss path :
  timeline_ok times -> 0 < b_spot m -> length defs = length times -> length path = length times ->
  length gauss = (length (from_today times) - 1)%nat ->
  exists p, simulate m st times defs gauss path = Ok (length gauss, p) /\ length p = length times /\
    forall i s, nth_error p i = Some s ->
      s_spot s = b_spot m * exp ((b_rate m - b_div m - 1/2 * b_vol m * b_vol m) * nth i times 0
                                 + b_vol m * brownian (from_today times) gauss (position times i)) /\
      (nth i defs false = true -> s_numeraire s = exp (b_rate m * nth i times 0)) /\
      (nth i defs false = false -> forall old, nth_error path i = Some old -> s_numeraire s = s_numeraire old).
Proof.
  intros Hok Hspot Hd Hp Hg.
  destruct (init_ready m times defs st Hok Hd) as (st2 & E & Hr).
  destruct (generate_ok m times defs st2 gauss path Hok Hd Hspot Hr ltac:(lia) Hp) as (p & Ep & Lp & Hi).
  exists p. split; [|split; [exact Lp|]].
  - unfold simulate. destruct (allocate st times) as [st1| | |]; cbn [obind] in E |- *; try discriminate.
    rewrite E. cbn [obind]. rewrite Ep. cbn [obind]. apply f_equal. f_equal. destruct Hr as (H1 & _). unfold sim_dim. rewrite H1. lia.
  - intros i s Es.
    assert (Hlt : (i < length p)%nat) by (apply nth_error_Some; congruence).
    destruct (Hi i ltac:(lia)) as [H1 H2].
    assert (Es' : nth i p dummy = s) by (apply nth_error_nth; exact Es). rewrite Es' in H1, H2.
    split; [exact H1|]. split.
    + intros Hb. rewrite Hb in H2. exact H2.
    + intros Hb old Eo. rewrite Hb in H2. rewrite H2. fold dummy. rewrite (nth_error_nth _ _ dummy Eo). reflexivity.
Qed.
Print Assumptions C52_path.

Example C52_path_case : let times := [0; 1/2; 3] in
  timeline_ok times /\ length [true; false; true] = length times /\ length [1; -1] = (length (from_today times) - 1)%nat.
Proof. cbn. repeat split; try lra. destruct (Req_EM_T 0 0); [reflexivity|lra]. Qed.
Example C52_path_case2 : let times := [1/2; 3] in
  timeline_ok times /\ length [1; -1] = (length (from_today times) - 1)%nat.
Proof. cbn. repeat split; try lra. destruct (Req_EM_T (1/2) 0); [lra|reflexivity]. Qed.

(** The weights of the draws are those of a Brownian motion: independent standard normal draws give the values at two
    product dates the covariance of the earlier of the two times. *)
Theorem C52_covariance times i j : timeline_ok times -> (i <= j < length times)%nat ->
  let T := from_today times in
  sum (length T - 1) (fun k => weight T (position times i) k * weight T (position times j) k) = nth i times 0.
Proof.
  intros Hok Hij T. assert (Hne : times <> []) by (destruct times; [easy|discriminate]).
  assert (HT : forall k, (S k < length T)%nat -> nth k T 0 <= nth (S k) T 0).
  { assert (Hl : forall l t k, later t l -> (S k < S (length l))%nat -> nth k (t :: l) 0 < nth (S k) (t :: l) 0).
    { induction l as [|x l IH]; intros t k H Hk; [cbn in Hk; lia|]. destruct H as [H1 H2]. destruct k; [exact H1|].
      apply (IH x k H2). cbn in Hk. lia. }
    intros k Hk. unfold T, from_today in *. destruct times as [|t r]; [easy|]. destruct Hok as [Ht Hr].
    destruct (Req_EM_T t 0) as [->|Hn].
    - left. apply Hl; [exact Hr|exact Hk].
    - left. apply Hl; [split; [lra|exact Hr]|exact Hk]. }
  assert (HT0 : nth 0 T 0 = 0).
  { unfold T, from_today. destruct times as [|t r]; [easy|]. destruct (Req_EM_T t 0) as [->|]; reflexivity. }
  assert (Hpos : (position times i <= position times j <= length T - 1)%nat).
  { unfold T, position, from_today. destruct times as [|t r]; [easy|]. destruct (Req_EM_T t 0); cbn [length] in *; lia. }
  rewrite (sum_cut _ (position times i)); [|lia|intros k Hk; unfold weight; destruct (lt_dec k (position times i)); [lia|lra]].
  rewrite <- (from_today_position times i Hne). fold T.
  assert (forall n, (n <= position times i)%nat ->
    sum n (fun k => weight T (position times i) k * weight T (position times j) k) = nth n T 0) as H; [|apply H; lia].
  induction n as [|n IH]; intros Hn; cbn [sum]; [symmetry; exact HT0|].
  rewrite IH by lia. unfold weight. destruct (lt_dec n (position times i)); [|lia]. destruct (lt_dec n (position times j)); [|lia].
  rewrite sqrt_def by (specialize (HT n ltac:(lia)); lra). lra.
Qed.
Print Assumptions C52_covariance.
Example C52_covariance_case : timeline_ok [1/2; 3] /\ (0 <= 1 < length [1/2; 3])%nat.
Proof. cbn. repeat split; try lra; lia. Qed.

(** A product date before today: the sample of that date gets the spot of the next one, the last sample is not written. *)
Theorem C52_past_date_refuted m st g s0 s1 : 0 < b_spot m ->
  exists p, simulate m st [-1; 1] [false; false] [g] [s0; s1] = Ok (1%nat, p) /\ nth_error p 1 = Some s1 /\
    exists s, nth_error p 0 = Some s /\ s_spot s = b_spot m * exp ((b_rate m - b_div m - 1/2 * b_vol m * b_vol m) + b_vol m * g).
Proof.
  intros Hspot. unfold simulate, allocate. cbn [filter].
  destruct (Rlt_dec 0 (-1)) as [H|H]; [lra|]. destruct (Rlt_dec 0 1) as [H1|H1]; [|lra].
  cbn [get nth_error obind length Nat.sub].
  destruct (Req_EM_T (-1) 0) as [H2|H2]; [lra|].
  unfold init. cbn [timeline length Nat.sub loop]. unfold init_step. cbn [timeline get nth_error obind stds drifts].
  rewrite put_ok by (rewrite resize_length; lia). cbn [obind]. rewrite put_ok by (rewrite resize_length; lia). cbn [obind].
  cbn [timeline today stds drifts numeraires]. unfold init_numeraire. cbn [loop get nth_error obind].
  unfold generate_path. cbn [today obind timeline sim_dim length Nat.sub loop]. unfold sim_dim. cbn [timeline length Nat.sub loop].
  unfold path_step. cbn [drifts stds numeraires].
  rewrite (get_ok _ 0 0) by (rewrite set_nth_length, resize_length; lia). cbn [obind].
  rewrite (get_ok _ 0 0) by (rewrite set_nth_length, resize_length; lia). cbn [obind get nth_error].
  rewrite !nth_set_same by (rewrite resize_length; lia).
  unfold fill_scenario. cbn [get nth_error obind put Nat.ltb Nat.leb length set_nth].
  eexists. split; [reflexivity|]. split; [reflexivity|]. eexists. split; [reflexivity|]. cbn [s_spot].
  rewrite exp_plus, exp_ln by exact Hspot. f_equal. f_equal. replace (1 - 0) with 1 by lra. rewrite sqrt_1. lra.
Qed.
Print Assumptions C52_past_date_refuted.

(** No product dates: reading the first one is undefined. *)
Theorem C52_no_dates_refuted m st defs gauss path : simulate m st [] defs gauss path = UB.
Proof. reflexivity. Qed.
Print Assumptions C52_no_dates_refuted.

(** Today given twice: the second sample is simulated one step ahead, and the last sample is not written. *)
Theorem C52_today_twice_refuted m st g s0 s1 s2 : 0 < b_spot m ->
  exists p, simulate m st [0; 0; 1] [false; false; false] [g] [s0; s1; s2] = Ok (1%nat, p) /\ nth_error p 2 = Some s2.
Proof.
  intros Hspot. unfold simulate, allocate. cbn [filter].
  destruct (Rlt_dec 0 0) as [H|H]; [lra|]. destruct (Rlt_dec 0 1) as [H1|H1]; [|lra].
  cbn [get nth_error obind length Nat.sub].
  destruct (Req_EM_T 0 0) as [H2|H2]; [|lra].
  unfold init. cbn [timeline length Nat.sub loop]. unfold init_step. cbn [timeline get nth_error obind stds drifts].
  rewrite put_ok by (rewrite resize_length; lia). cbn [obind]. rewrite put_ok by (rewrite resize_length; lia). cbn [obind].
  cbn [timeline today stds drifts numeraires]. unfold init_numeraire. cbn [loop get nth_error obind].
  unfold generate_path. cbn [today obind timeline sim_dim length Nat.sub loop].
  unfold fill_scenario. cbn [get nth_error obind put Nat.ltb Nat.leb length set_nth].
  unfold sim_dim. cbn [timeline length Nat.sub loop].
  unfold path_step. cbn [drifts stds numeraires].
  rewrite (get_ok _ 0 0) by (rewrite set_nth_length, resize_length; lia). cbn [obind].
  rewrite (get_ok _ 0 0) by (rewrite set_nth_length, resize_length; lia). cbn [obind get nth_error].
  unfold fill_scenario. cbn [get nth_error obind put Nat.ltb Nat.leb length set_nth].
  eexists. split; reflexivity.
Qed.
Print Assumptions C52_today_twice_refuted.

From Coq Require Import Reals List Arith Bool Lra Lia.
From Verif Require Import Base Vec BsModel BsSpec.
Import ListNotations.
Local Open Scope R_scope.

Lemma loop_inv {T} (Inv : nat -> T -> Prop) body : forall n first s,
  (forall i s, (first <= i < first + n)%nat -> Inv i s -> exists s', body i s = Ok s' /\ Inv (S i) s') ->
  Inv first s -> exists s', loop n first body s = Ok s' /\ Inv (first + n)%nat s'.
Proof.
  induction n as [|n IH]; intros first s Hb Hi; cbn [loop].
  - exists s. split; [reflexivity|]. rewrite Nat.add_0_r. exact Hi.
  - destruct (Hb first s) as (s1 & E1 & H1); [lia|exact Hi|]. rewrite E1. cbn [obind].
    destruct (IH (S first) s1) as (s2 & E2 & H2); [intros; apply Hb; [lia|assumption]|exact H1|].
    exists s2. split; [exact E2|]. replace (first + S n)%nat with (S first + n)%nat by lia. exact H2.
Qed.

Lemma resize_length l n : length (resize l n) = n.
Proof. unfold resize. rewrite app_length, firstn_length, repeat_length. lia. Qed.

Lemma sum_ext n f g : (forall j, (j < n)%nat -> f j = g j) -> sum n f = sum n g.
Proof. induction n as [|n IH]; intros H; [reflexivity|]. cbn. rewrite IH, H by (intros; try apply H; lia). reflexivity. Qed.
Lemma sum_zero n f : (forall j, (j < n)%nat -> f j = 0) -> sum n f = 0.
Proof. induction n as [|n IH]; intros H; [reflexivity|]. cbn. rewrite IH, H by (intros; try apply H; lia). lra. Qed.
Lemma sum_cut n k f : (k <= n)%nat -> (forall j, (k <= j < n)%nat -> f j = 0) -> sum n f = sum k f.
Proof.
  induction n as [|n IH]; intros Hk H.
  - replace k with O by lia. reflexivity.
  - destruct (Nat.eq_dec k (S n)) as [->|Hne]; [reflexivity|].
    cbn. rewrite IH, H by (intros; try apply H; lia). lra.
Qed.
Lemma sum_scale n c f : sum n (fun j => c * f j) = c * sum n f.
Proof. induction n as [|n IH]; cbn; [lra|]. rewrite IH. lra. Qed.

Lemma brownian_step T g k : (k <= length T - 1)%nat -> brownian T g k = sum k (fun j => sqrt (nth (S j) T 0 - nth j T 0) * nth j g 0).
Proof.
  intros Hk. unfold brownian. rewrite (sum_cut _ k); [|exact Hk|intros j Hj; unfold weight; destruct (lt_dec j k); [lia|lra]].
  apply sum_ext. intros j Hj. unfold weight. destruct (lt_dec j k); [reflexivity|lia].
Qed.

Lemma later_filter : forall l t, 0 <= t -> later t l -> filter (fun t => if Rlt_dec 0 t then true else false) l = l.
Proof.
  induction l as [|x l IH]; intros t Ht H; [reflexivity|]. destruct H as [Hx Hl]. cbn.
  destruct (Rlt_dec 0 x); [|lra]. rewrite (IH x) by (try lra; exact Hl). reflexivity.
Qed.
Lemma timeline_from_today times : timeline_ok times ->
  0 :: filter (fun t => if Rlt_dec 0 t then true else false) times = from_today times.
Proof.
  destruct times as [|t r]; [easy|]. intros [Ht Hl]. cbn. destruct (Req_EM_T t 0) as [->|Hne].
  - destruct (Rlt_dec 0 0); [lra|]. rewrite (later_filter r 0) by (try lra; exact Hl). reflexivity.
  - destruct (Rlt_dec 0 t); [|lra]. rewrite (later_filter r t) by (try lra; exact Hl). reflexivity.
Qed.
Lemma from_today_length times : times <> [] -> length (from_today times) = match times with t :: _ => if Req_EM_T t 0 then length times else S (length times) | [] => O end.
Proof. destruct times as [|t r]; [easy|]. intros _. cbn. destruct (Req_EM_T t 0); reflexivity. Qed.
Lemma from_today_position times i : times <> [] -> nth (position times i) (from_today times) 0 = nth i times 0.
Proof. destruct times as [|t r]; [easy|]. intros _. cbn [position from_today]. destruct (Req_EM_T t 0); reflexivity. Qed.

(** what Init leaves behind *)
Definition ready (m : bs) (times : list R) (defs : list bool) (st : state) : Prop :=
  let T := from_today times in
  timeline st = T /\ today st = (if Req_EM_T (nth 0 times 0) 0 then true else false) /\
  length (stds st) = (length T - 1)%nat /\ length (drifts st) = (length T - 1)%nat /\ length (numeraires st) = length times /\
  (forall j, (j < length T - 1)%nat -> nth j (stds st) 0 = b_vol m * sqrt (nth (S j) T 0 - nth j T 0) /\
     nth j (drifts st) 0 = (b_rate m - b_div m - 1/2 * b_vol m * b_vol m) * (nth (S j) T 0 - nth j T 0)) /\
  (forall j, (j < length times)%nat -> nth j defs false = true -> nth j (numeraires st) 0 = exp (b_rate m * nth j times 0)).

Lemma init_ready m times defs st : timeline_ok times -> length defs = length times ->
  exists st2, (do s1 <- allocate st times; init m times defs s1) = Ok st2 /\ ready m times defs st2.
Proof.
  intros Hok Hd. assert (Hne : times <> []) by (destruct times; [easy|discriminate]).
  assert (Hpos : (0 < length times)%nat) by (destruct times; [easy|cbn; lia]).
  unfold allocate. rewrite (timeline_from_today _ Hok). rewrite (get_ok times 0 0) by lia. cbn [obind].
  set (T := from_today times). set (st1 := {| timeline := T; today := _; stds := _; drifts := _; numeraires := _ |}).
  unfold init.
  destruct (loop_inv (fun i s => timeline s = T /\ today s = today st1 /\ numeraires s = numeraires st1 /\
     length (stds s) = (length T - 1)%nat /\ length (drifts s) = (length T - 1)%nat /\
     forall j, (j < i)%nat -> nth j (stds s) 0 = b_vol m * sqrt (nth (S j) T 0 - nth j T 0) /\
       nth j (drifts s) 0 = (b_rate m - b_div m - 1/2 * b_vol m * b_vol m) * (nth (S j) T 0 - nth j T 0))
     (init_step m) (length T - 1) 0 st1) as (s & Es & H1 & H2 & H3 & H4 & H5 & H6).
  - intros i s Hi (H1 & H2 & H3 & H4 & H5 & H6). unfold init_step. rewrite H1.
    rewrite (get_ok T (S i) 0) by lia. cbn [obind]. rewrite (get_ok T i 0) by lia. cbn [obind].
    rewrite put_ok by lia. cbn [obind]. rewrite put_ok by lia. cbn [obind].
    eexists. split; [reflexivity|]. cbn [timeline today numeraires stds drifts]. rewrite !set_nth_length.
    repeat split; try assumption.
    + destruct (Nat.eq_dec j i) as [->|Hj]; [rewrite nth_set_same by lia; reflexivity|].
      rewrite nth_set_other by lia. apply H6. lia.
    + destruct (Nat.eq_dec j i) as [->|Hj]; [rewrite nth_set_same by lia; reflexivity|].
      rewrite nth_set_other by lia. apply H6. lia.
  - cbn. rewrite !resize_length. repeat split; try lia.
  - change (timeline st1) with T. rewrite Es. cbn [obind].
    destruct (loop_inv (fun i ns => length ns = length times /\
       forall j, (j < i)%nat -> nth j defs false = true -> nth j ns 0 = exp (b_rate m * nth j times 0))
       (init_numeraire (b_rate m) times defs) (length times) 0 (numeraires s)) as (ns & En & L1 & L2).
    + intros i ns Hi (L1 & L2). unfold init_numeraire. rewrite (get_ok defs i false) by lia. cbn [obind].
      destruct (nth i defs false) eqn:Ed.
      * rewrite (get_ok times i 0) by lia. cbn [obind]. rewrite put_ok by lia.
        eexists. split; [reflexivity|]. rewrite set_nth_length. split; [exact L1|]. intros j Hj Hdj.
        destruct (Nat.eq_dec j i) as [->|Hne']; [rewrite nth_set_same by lia; reflexivity|].
        rewrite nth_set_other by lia. apply L2; [lia|exact Hdj].
      * eexists. split; [reflexivity|]. split; [exact L1|]. intros j Hj Hdj.
        destruct (Nat.eq_dec j i) as [->|Hne']; [congruence|]. apply L2; [lia|exact Hdj].
    + rewrite H3. cbn. split; [apply resize_length|]. intros j Hj. lia.
    + rewrite En. cbn [obind]. eexists. split; [reflexivity|]. unfold ready. fold T. cbn [timeline today stds drifts numeraires].
      rewrite H1, H2. repeat split; try assumption; try apply H6; try (intros; apply L2; assumption); try lia.
Qed.

(** the sample a path must have for product date i *)
Definition right_sample (m : bs) (times : list R) (defs : list bool) (gauss : list R) (old : list sample) (i : nat) (s : sample) : Prop :=
  s_spot s = b_spot m * exp ((b_rate m - b_div m - 1/2 * b_vol m * b_vol m) * nth i times 0 + b_vol m * brownian (from_today times) gauss (position times i)) /\
  s_numeraire s = if nth i defs false then exp (b_rate m * nth i times 0) else s_numeraire (nth i old {| s_spot := 0; s_numeraire := 0 |}).

Definition dummy := {| s_spot := 0; s_numeraire := 0 |}.

Lemma fill_scenario_ok ns defs idx spot path : (idx < length path)%nat -> (idx < length defs)%nat -> (idx < length ns)%nat ->
  fill_scenario ns defs idx spot path =
  Ok (set_nth path idx {| s_spot := spot; s_numeraire := if nth idx defs false then nth idx ns 0 else s_numeraire (nth idx path dummy) |}).
Proof.
  intros H1 H2 H3. unfold fill_scenario. rewrite (get_ok path idx dummy) by exact H1. cbn [obind].
  rewrite (get_ok defs idx false) by exact H2. cbn [obind].
  destruct (nth idx defs false).
  - rewrite (get_ok ns idx 0) by exact H3. cbn [obind]. apply put_ok. exact H1.
  - cbn [obind]. apply put_ok. exact H1.
Qed.

Lemma generate_ok m times defs st gauss path : timeline_ok times -> length defs = length times -> 0 < b_spot m ->
  ready m times defs st -> (length (from_today times) - 1 <= length gauss)%nat -> length path = length times ->
  exists p, generate_path m defs st gauss path = Ok p /\ length p = length times /\
    forall i, (i < length times)%nat -> right_sample m times defs gauss path i (nth i p dummy).
Proof.
  intros Hok Hd Hspot (R1 & R2 & R3 & R4 & R5 & R6 & R7) Hg Hp.
  assert (Hne : times <> []) by (destruct times; [easy|discriminate]).
  assert (Hpos : (0 < length times)%nat) by (destruct times; [easy|cbn; lia]).
  set (T := from_today times) in *. set (mu := b_rate m - b_div m - 1/2 * b_vol m * b_vol m) in *.
  (* off = 1 when the first product date is today *)
  set (off := if Req_EM_T (nth 0 times 0) 0 then 1%nat else O).
  assert (HT : (length T - 1 + off = length times)%nat).
  { unfold T, off. rewrite from_today_length by exact Hne. destruct times as [|t r]; [easy|]. cbn [nth]. destruct (Req_EM_T t 0); cbn [length]; lia. }
  assert (Hposn : forall i, (position times (i + off) = S i)%nat).
  { intros i. unfold position, off. destruct times as [|t r]; [easy|]. cbn [nth]. destruct (Req_EM_T t 0); lia. }
  assert (HT0 : nth 0 T 0 = 0).
  { unfold T, from_today. destruct times as [|t r]; [easy|]. destruct (Req_EM_T t 0) as [->|]; reflexivity. }
  set (B k := sum k (fun j => sqrt (nth (S j) T 0 - nth j T 0) * nth j gauss 0)).
  set (Inv := fun (i : nat) (s : nat * R * list sample) => let '(idx, l, p) := s in
     idx = (i + off)%nat /\ l = ln (b_spot m) + (mu * nth i T 0 + b_vol m * B i) /\ length p = length times /\
     (forall j, (j < idx)%nat -> right_sample m times defs gauss path j (nth j p dummy)) /\
     (forall j, (idx <= j)%nat -> nth j p dummy = nth j path dummy)).
  unfold generate_path. rewrite R2.
  assert (Hstart : exists idx p, (if (if Req_EM_T (nth 0 times 0) 0 then true else false) then do p <- fill_scenario (numeraires st) defs 0 (b_spot m) path; Ok (1%nat, p) else Ok (O, path)) = Ok (idx, p) /\ Inv O (idx, ln (b_spot m), p)).
  { unfold Inv, off in *. destruct (Req_EM_T (nth 0 times 0) 0) as [E0|E0].
    - rewrite fill_scenario_ok by lia. cbn [obind]. eexists _, _. split; [reflexivity|].
      rewrite HT0. unfold B. cbn [sum]. split; [lia|]. split; [lra|]. rewrite set_nth_length. split; [exact Hp|]. split.
      + intros j Hj. replace j with O by lia. rewrite nth_set_same by lia. split; cbn [s_spot s_numeraire].
        * rewrite E0. replace (position times 0) with O.
          2:{ unfold position. destruct times as [|t r]; [easy|]. cbn in E0. destruct (Req_EM_T t 0); [reflexivity|contradiction]. }
          fold T. rewrite brownian_step by lia. cbn [sum]. rewrite !Rmult_0_r, Rplus_0_r, exp_0. lra.
        * destruct (nth 0 defs false) eqn:Ed; [apply R7; [lia|exact Ed]|reflexivity].
      + intros j Hj. apply nth_set_other; lia.
    - eexists _, _. split; [reflexivity|]. rewrite HT0. unfold B. cbn [sum]. split; [lia|]. split; [lra|]. split; [exact Hp|]. split; [intros; lia|reflexivity]. }
  destruct Hstart as (idx0 & p0 & E0 & I0). rewrite E0. cbn [obind]. unfold sim_dim. rewrite R1.
  destruct (loop_inv Inv (path_step defs st gauss) (length T - 1) 0 (idx0, ln (b_spot m), p0)) as ([[idx l] p] & El & I1).
  - intros i [[idx l] p] Hi (H1 & H2 & H3 & H4 & H5). unfold path_step.
    rewrite (get_ok (drifts st) i 0) by lia. cbn [obind]. rewrite (get_ok (stds st) i 0) by lia. cbn [obind].
    rewrite (get_ok gauss i 0) by lia. cbn [obind]. rewrite fill_scenario_ok by lia. cbn [obind].
    eexists. split; [reflexivity|]. destruct (R6 i ltac:(lia)) as [Es Ed]. rewrite Es, Ed.
    assert (El' : l + (mu * (nth (S i) T 0 - nth i T 0) + b_vol m * sqrt (nth (S i) T 0 - nth i T 0) * nth i gauss 0)
              = ln (b_spot m) + (mu * nth (S i) T 0 + b_vol m * B (S i))).
    { rewrite H2. unfold B. cbn [sum]. ring. }
    assert (Htime : nth (S i) T 0 = nth idx times 0).
    { unfold T. rewrite <- (Hposn i), from_today_position by exact Hne. rewrite H1. reflexivity. }
    unfold Inv. split; [lia|]. split; [exact El'|]. rewrite set_nth_length. split; [exact H3|]. split.
    + intros j Hj. destruct (Nat.eq_dec j idx) as [->|Hji].
      * rewrite nth_set_same by lia. split; cbn [s_spot s_numeraire].
        -- rewrite El'. rewrite exp_plus, exp_ln by exact Hspot. f_equal. fold mu T. rewrite H1, Hposn, brownian_step by lia. rewrite Htime, H1. reflexivity.
        -- destruct (nth idx defs false) eqn:Edd; [apply R7; [lia|exact Edd]|]. rewrite H5 by lia. reflexivity.
      * rewrite nth_set_other by lia. apply H4. lia.
    + intros j Hj. rewrite nth_set_other by lia. apply H5. lia.
  - exact I0.
  - rewrite El. cbn [obind snd]. exists p. split; [reflexivity|]. unfold Inv in I1. destruct I1 as (H1 & H2 & H3 & H4 & H5).
    split; [exact H3|]. intros i Hi. apply H4. lia.
Qed.

(** Proofs about curves. *)
From Coq Require Import Reals List ZArith Bool Lia Lra.
From Verif Require Import Base Vec CurveModel CurveSpec.
Import ListNotations.
Open Scope nat_scope.

Lemma lbound_le l x : lbound l x <= length l.
Proof. induction l as [|a l IH]; cbn; [lia|]. destruct (Z.ltb_spec a x); lia. Qed.
Lemma ubound_le l x : ubound l x <= length l.
Proof. induction l as [|a l IH]; cbn; [lia|]. destruct (Z.leb_spec a x); lia. Qed.
Lemma lbound_before l x j : j < lbound l x -> (nth j l 0 < x)%Z.
Proof. revert j; induction l as [|a l IH]; intros j; cbn; [lia|]. destruct (Z.ltb_spec a x); [|lia]. destruct j; [auto|]. intros Hj. apply IH. lia. Qed.
Lemma ubound_before l x j : j < ubound l x -> (nth j l 0 <= x)%Z.
Proof. revert j; induction l as [|a l IH]; intros j; cbn; [lia|]. destruct (Z.leb_spec a x); [|lia]. destruct j; [auto|]. intros Hj. apply IH. lia. Qed.
Lemma lbound_at l x : lbound l x < length l -> (x <= nth (lbound l x) l 0)%Z.
Proof. induction l as [|a l IH]; cbn; [lia|]. destruct (Z.ltb_spec a x); [|auto]. intros H'. apply IH. lia. Qed.
Lemma ubound_at l x : ubound l x < length l -> (x < nth (ubound l x) l 0)%Z.
Proof. induction l as [|a l IH]; cbn; [lia|]. destruct (Z.leb_spec a x); [|auto]. intros H'. apply IH. lia. Qed.
Lemma lbound_succ l x : lbound l (x + 1) = ubound l x.
Proof. induction l as [|a l IH]; cbn; [reflexivity|]. destruct (Z.ltb_spec a (x + 1)), (Z.leb_spec a x); try lia. Qed.
Lemma ascending_nondecreasing ks : ascending ks -> nondecreasing ks.
Proof. intros H i j Hij. specialize (H i j Hij). lia. Qed.
Lemma nondecreasing_le ks i j : nondecreasing ks -> i <= j < length ks -> (nth i ks 0 <= nth j ks 0)%Z.
Proof. intros H Hij. destruct (Nat.eq_dec i j) as [->|]; [lia|]. apply H. lia. Qed.
Lemma lb_le_ub l x : lbound l x <= ubound l x.
Proof. induction l as [|a l IH]; cbn; [lia|]. destruct (Z.ltb_spec a x), (Z.leb_spec a x); lia. Qed.
(** the knots between the two bounds are the date itself *)
Lemma between l x j : nondecreasing l -> lbound l x <= j < ubound l x -> nth j l 0%Z = x.
Proof.
  intros H Hj. pose proof (ubound_before l x j ltac:(lia)). pose proof (ubound_le l x). pose proof (lbound_at l x ltac:(lia)). pose proof (nondecreasing_le l (lbound l x) j H ltac:(lia)). lia.
Qed.

Open Scope R_scope.
Lemma sofar_from_spec mean (m : nat -> R) r : forall k last i, (forall j, (j < length r)%nat -> mean (i + j)%nat = Ok (m (i + j)%nat)) ->
  exists s, sofar_from mean last k r i = Ok s /\ length s = length r /\
    forall j, (j < length r)%nat -> nth (S j) (last :: s) 0 = nth j (last :: s) 0 + dt (nth (S j) (k :: r) 0%Z) (nth j (k :: r) 0%Z) * m (i + j)%nat.
Proof.
  induction r as [|k' r IH]; intros k last i Hm; [exists []; cbn; repeat split; intros; lia|].
  cbn [sofar_from]. pose proof (Hm 0%nat ltac:(cbn; lia)) as H0. rewrite Nat.add_0_r in H0. rewrite H0. cbn [obind]. set (x := last + _). destruct (IH k' x (S i)) as (s & E & L & N).
  { intros j Hj. specialize (Hm (S j) ltac:(cbn; lia)). now rewrite <- Nat.add_succ_comm in Hm. }
  exists (x :: s). rewrite E. cbn [obind length]. split; [reflexivity|]. split; [now rewrite L|]. intros j Hj. destruct j as [|j].
  - cbn. rewrite Nat.add_0_r. reflexivity.
  - specialize (N j ltac:(lia)). change (nth (S (S j)) (last :: x :: s) 0) with (nth (S j) (x :: s) 0). rewrite N. rewrite Nat.add_succ_comm. reflexivity.
Qed.
Lemma sofar_spec mean (m : nat -> R) ks : (forall j, (S j < length ks)%nat -> mean j = Ok (m j)) ->
  exists s, sofar_with mean ks = Ok s /\ nth 0 s 0 = 0 /\ (ks <> [] -> length s = length ks) /\
    forall j, (S j < length ks)%nat -> nth (S j) s 0 = nth j s 0 + dt (nth (S j) ks 0%Z) (nth j ks 0%Z) * m j.
Proof.
  intros Hm. destruct ks as [|k r]; [exists [0]; cbn; repeat split; [congruence|intros; lia]|]. cbn [sofar_with length] in *.
  destruct (sofar_from_spec mean m r k 0 0) as (s & E & L & N); [intros j Hj; apply Hm; lia|]. exists (0 :: s). rewrite E. cbn [obind length]. split; [reflexivity|]. split; [reflexivity|]. split; [now rewrite L|]. intros j Hj. rewrite N by lia. reflexivity.
Qed.

(** * Piecewise constant *)
Section Pwc.
Variables (ks : list Z) (fr : list R).
Hypothesis Hks : ascending ks.
Hypothesis Hfr : length fr = length ks.
Lemma new_pwc_ok : exists s, new_pwc ks fr = Ok (Pwc ks fr s) /\ (ks <> [] -> length s = length ks) /\ nth 0 s 0 = 0 /\
  forall j, (S j < length ks)%nat -> nth (S j) s 0 = nth j s 0 + dt (nth (S j) ks 0%Z) (nth j ks 0%Z) * nth j fr 0.
Proof using Hfr.
  destruct (sofar_spec (fun i => get fr i) (fun i => nth i fr 0) ks) as (s & E & H0 & L & N); [intros j Hj; apply get_ok; lia|].
  exists s. unfold new_pwc, pwc_sofar. rewrite E. auto.
Qed.
Variable s : list R.
Hypothesis Hs0 : nth 0 s 0 = 0.
Hypothesis Hsl : ks <> [] -> length s = length ks.
Hypothesis Hs : forall j, (S j < length ks)%nat -> nth (S j) s 0 = nth j s 0 + dt (nth (S j) ks 0%Z) (nth j ks 0%Z) * nth j fr 0.
Let c := Pwc ks fr s.
Definition pwc_to (d : Z) : R := let i := lbound ks d in if (i =? 0)%nat then 0 else nth (i - 1) s 0 + dt d (nth (i - 1) ks 0%Z) * nth (i - 1) fr 0.
Lemma pwc_integral_to_ok d : pwc_integral_to c d = Ok (pwc_to d).
Proof using Hfr Hs Hsl Hs0.
  unfold pwc_integral_to, pwc_to. cbn [c c_knots c_sofar c_right]. pose proof (lbound_le ks d) as Hle. set (i := lbound ks d) in *. destruct (Nat.eqb_spec i 0) as [|Hi]; [reflexivity|].
  assert (ks <> []) as Hne by (intros E; rewrite E in Hle; cbn in Hle; lia). specialize (Hsl Hne).
  destruct (Nat.ltb_spec i (length ks)) as [Hlt|Hlt]; cbn [andb]; [destruct (Z.eqb_spec (nth i ks 0%Z) d) as [Ed|Ed]|].
  - rewrite (get_ok s i 0) by lia. f_equal. pose proof (Hs (i - 1)%nat) as E. replace (S (i - 1)) with i in E by lia. rewrite E by lia. now rewrite Ed.
  - rewrite (get_ok ks _ 0%Z), (get_ok s _ 0), (get_ok fr _ 0) by lia. reflexivity.
  - rewrite (get_ok ks _ 0%Z), (get_ok s _ 0), (get_ok fr _ 0) by lia. reflexivity.
Qed.
Lemma pwc_value_ok d : exists v b, pwc_f c d = Ok (v, b) /\ is_constant_value ks fr d v /\ (b = true <-> In d ks) /\ pwc_to (d + 1) - pwc_to d = v.
Proof using Hfr Hks Hs Hsl Hs0.
  unfold pwc_f. cbn [c c_knots c_right]. pose proof (lbound_le ks d) as Hle. pose proof (lbound_before ks d) as Hb. pose proof (lbound_at ks d) as Ha. unfold pwc_to. rewrite lbound_succ. pose proof (lb_le_ub ks d) as Hlu. pose proof (ubound_le ks d) as Hu. pose proof (ubound_before ks d) as Hub. pose proof (ubound_at ks d) as Hua.
  set (i := lbound ks d) in *. set (u := ubound ks d) in *. clearbody i u.
  assert (u <= S i)%nat as Hui. { destruct (le_lt_dec u (S i)) as [|Q]; [assumption|]. exfalso. pose proof (Hub (S i) Q). pose proof (Ha ltac:(lia)). pose proof (Hks i (S i) ltac:(lia)). lia. }
  destruct (Nat.ltb_spec i (length ks)) as [Hlt|Hlt]; cbn [andb]; [destruct (Z.eqb_spec (nth i ks 0%Z) d) as [Ed|Ed]|].
  - rewrite (get_ok fr i 0) by lia. cbn [obind]. exists (nth i fr 0), true. split; [reflexivity|]. split; [right; exists i; split; [lia|]; split; [lia|]; split; [intros j Hj; pose proof (Hks i j ltac:(lia)); lia|reflexivity]|]. split; [split; [intros _; rewrite <- Ed; apply nth_In; lia|reflexivity]|].
    assert (u = S i) as -> by (destruct (Nat.eq_dec u i) as [->|]; [specialize (Hua Hlt); lia|lia]). cbn [Nat.eqb]. replace (S i - 1)%nat with i by lia. rewrite Ed. unfold dt at 1. replace (d + 1 - d)%Z with 1%Z by lia. destruct (Nat.eqb_spec i 0) as [->|Hi]; [rewrite Hs0; lra|].
    pose proof (Hs (i - 1)%nat) as E. replace (S (i - 1)) with i in E by lia. rewrite E by lia. rewrite Ed. lra.
  - assert (u = i) as -> by (destruct (Nat.eq_dec u i) as [|]; [assumption|]; specialize (Hub i ltac:(lia)); specialize (Ha Hlt); lia).
    assert (~ In d ks) as Hni. { intros Hin. apply (In_nth _ _ 0%Z) in Hin as (j & Hj & Ej). destruct (le_lt_dec i j) as [Q|Q]; [|specialize (Hb j Q); lia]. destruct (Nat.eq_dec j i) as [->|]; [congruence|]. pose proof (Hks i j ltac:(lia)). specialize (Ha Hlt). lia. }
    destruct (Nat.eqb_spec i 0) as [->|Hi].
    + exists 0, false. split; [reflexivity|]. split; [left; split; [|reflexivity]; intros j Hj; specialize (Hua Hlt); pose proof (nondecreasing_le ks 0 j (ascending_nondecreasing _ Hks) ltac:(lia)); lia|]. split; [split; [discriminate|tauto]|lra].
    + rewrite (get_ok fr _ 0) by lia. cbn [obind]. exists (nth (i - 1) fr 0), false. split; [reflexivity|]. split; [right; exists (i - 1)%nat; split; [lia|]; split; [specialize (Hb (i - 1)%nat ltac:(lia)); lia|]; split; [|reflexivity]|].
      * intros j Hj. specialize (Hua Hlt). pose proof (nondecreasing_le ks i j (ascending_nondecreasing _ Hks) ltac:(lia)). lia.
      * split; [split; [discriminate|tauto]|]. unfold dt. rewrite !minus_IZR, plus_IZR. lra.
  - assert (i = length ks) as -> by lia. assert (u = length ks) as -> by lia. destruct (Nat.eqb_spec (length ks) 0) as [E0|Hi].
    + exists 0, false. split; [reflexivity|]. split; [left; split; [intros; lia|reflexivity]|]. split; [split; [discriminate|]; destruct ks; [intros []|discriminate]|lra].
    + rewrite (get_ok fr _ 0) by lia. cbn [obind]. exists (nth (length ks - 1) fr 0), false. split; [reflexivity|]. split; [right; exists (length ks - 1)%nat; split; [lia|]; split; [specialize (Hb (length ks - 1)%nat ltac:(lia)); lia|]; split; [intros; lia|reflexivity]|].
      split; [split; [discriminate|]; intros Hin; apply (In_nth _ _ 0%Z) in Hin as (j & Hj & Ej); specialize (Hb j Hj); lia|]. unfold dt. rewrite !minus_IZR, plus_IZR. lra.
Qed.
End Pwc.

(** * Piecewise linear *)
Section Pwl.
Variables (ks : list Z) (fl fr : list R).
Hypothesis Hne : ks <> [].
Hypothesis Hks : nondecreasing ks.
Hypothesis Hfl : length fl = length ks.
Hypothesis Hfr : length fr = length ks.
Lemma new_pwl_ok : exists s, new_pwl ks fl fr = Ok (Pwl ks fl fr s) /\ length s = length ks /\ nth 0 s 0 = 0 /\
  forall j, (S j < length ks)%nat -> nth (S j) s 0 = nth j s 0 + dt (nth (S j) ks 0%Z) (nth j ks 0%Z) * ((nth (S j) fl 0 + nth j fr 0) / 2).
Proof using Hfr Hfl Hne.
  destruct (sofar_spec (fun i => do x <- get fl (S i); do y <- get fr i; Ok ((x + y) / 2)) (fun i => (nth (S i) fl 0 + nth i fr 0) / 2) ks) as (s & E & H0 & L & N); [intros j Hj; rewrite (get_ok fl _ 0), (get_ok fr _ 0) by lia; reflexivity|].
  exists s. unfold new_pwl, pwl_sofar. rewrite E. auto.
Qed.
Variable s : list R.
Hypothesis Hs0 : nth 0 s 0 = 0.
Hypothesis Hsl : length s = length ks.
Hypothesis Hs : forall j, (S j < length ks)%nat -> nth (S j) s 0 = nth j s 0 + dt (nth (S j) ks 0%Z) (nth j ks 0%Z) * ((nth (S j) fl 0 + nth j fr 0) / 2).
Let p := Pwl ks fl fr s.
Definition pwl_val (i : nat) (d : Z) : R :=
  if (i =? 0)%nat then nth 0 fl 0 else if (i =? length ks)%nat then nth (i - 1) fr 0
  else nth (i - 1) fr 0 + dt d (nth (i - 1) ks 0%Z) / dt (nth i ks 0%Z) (nth (i - 1) ks 0%Z) * (nth i fl 0 - nth (i - 1) fr 0).
Definition pwl_to (d : Z) : R :=
  let i := lbound ks d in
  if (i =? 0)%nat then - nth 0 fl 0 * dt (nth 0 ks 0%Z) d
  else nth (i - 1) s 0 + dt d (nth (i - 1) ks 0%Z) * ((nth (i - 1) fr 0 + pwl_val i d) / 2).
Lemma nonempty : (0 < length ks)%nat.
Proof using Hne. clear -Hne. destruct ks; [congruence|cbn; lia]. Qed.
Lemma pwl_integral_to_ok d : pwl_integral_to p d = Ok (pwl_to d).
Proof using Hfr Hfl Hs Hsl Hs0 Hne.
  unfold pwl_integral_to, pwl_to, pwl_val. cbn [p l_knots l_sofar l_left l_right]. pose proof nonempty. pose proof (lbound_le ks d) as Hle. pose proof (lbound_before ks d) as Hb. set (i := lbound ks d) in *. clearbody i. destruct (Nat.eqb_spec i 0) as [->|Hi]; [rewrite (get_ok fl _ 0), (get_ok ks _ 0%Z) by lia; reflexivity|].
  destruct (Nat.eqb_spec i (length ks)) as [->|Hlt].
  - rewrite (get_ok s _ 0), (get_ok fr _ 0), (get_ok ks _ 0%Z) by lia. cbn [obind]. f_equal. rewrite Hsl, Hfr. field.
  - rewrite (get_ok ks _ 0%Z) by lia. cbn [obind]. destruct (Z.eqb_spec (nth i ks 0%Z) d) as [Ed|Ed].
    + rewrite (get_ok s i 0) by lia. f_equal. pose proof (Hs (i - 1)%nat) as E. replace (S (i - 1)) with i in E by lia. rewrite E by lia. rewrite Ed. assert (dt d (nth (i - 1) ks 0%Z) <> 0) as Hd by (unfold dt; apply not_0_IZR; specialize (Hb (i - 1)%nat ltac:(lia)); lia). field. exact Hd.
    + rewrite (get_ok ks _ 0%Z), (get_ok fr _ 0), (get_ok fl _ 0), (get_ok s _ 0) by lia. cbn [obind]. f_equal. unfold Rdiv. ring.
Qed.
Lemma pwl_value_ok d b : exists v, pwl_value p d b = Ok v /\ v = pwl_val (if b then ubound ks d else lbound ks d) d /\ is_linear_value ks fl fr d b v.
Proof using Hfr Hfl Hne Hsl.
  exists (pwl_val (if b then ubound ks d else lbound ks d) d). unfold pwl_value, pwl_val, is_linear_value. cbn [p l_knots l_left l_right]. pose proof nonempty.
  assert (let i := if b then ubound ks d else lbound ks d in (i <= length ks)%nat /\ (forall j, (j < i)%nat -> if b then (nth j ks 0 <= d)%Z else (nth j ks 0 < d)%Z) /\ ((i < length ks)%nat -> ~ if b then (nth i ks 0 <= d)%Z else (nth i ks 0 < d)%Z)) as (Hle & Hb & Ha).
  { cbv zeta. destruct b; (split; [first [apply ubound_le|apply lbound_le]|]); split; intros; [now apply ubound_before|pose proof (ubound_at ks d H0); lia|now apply lbound_before|pose proof (lbound_at ks d H0); lia]. }
  set (i := if b then ubound ks d else lbound ks d) in *. clearbody i. destruct (Nat.eqb_spec i 0) as [->|Hi]; [rewrite (get_ok fl _ 0) by lia; repeat split; left; split; [apply Ha; lia|reflexivity]|].
  destruct (Nat.eqb_spec i (length ks)) as [->|Hlt].
  - rewrite (get_ok fr _ 0) by lia. rewrite Hfr. repeat split. right; left. split; [apply Hb; lia|reflexivity].
  - rewrite (get_ok ks i 0%Z), (get_ok ks (i - 1) 0%Z), (get_ok fr _ 0), (get_ok fl _ 0) by lia. cbn [obind]. split; [reflexivity|]. split; [reflexivity|]. right; right. exists (i - 1)%nat. replace (S (i - 1)) with i by lia. split; [lia|]. split; [apply Hb; lia|]. split; [apply Ha; lia|].
    unfold line, dt. rewrite !minus_IZR. unfold Rdiv. ring.
Qed.
Lemma sofar_repeated d j : (lbound ks d <= j < ubound ks d)%nat -> nth j s 0 = nth (lbound ks d) s 0.
Proof using Hks Hs Hsl Hfr Hfl.
  intros Hj. pose proof (ubound_le ks d). induction j as [|j IH]; [now replace (lbound ks d) with 0%nat by lia|]. destruct (Nat.eq_dec (S j) (lbound ks d)) as [->|]; [reflexivity|].
  rewrite Hs by lia. rewrite (between ks d (S j) Hks Hj), (between ks d j Hks ltac:(lia)). unfold dt. rewrite Z.sub_diag. rewrite IH by lia. lra.
Qed.
Lemma pwl_day d : pwl_to (d + 1) - pwl_to d = (pwl_val (ubound ks d) d + pwl_val (lbound ks (d + 1)) (d + 1)) / 2.
Proof using Hks Hs Hs0 Hne Hsl Hfr Hfl.
  unfold pwl_to. rewrite lbound_succ. pose proof nonempty. pose proof (lb_le_ub ks d) as Hlu. pose proof (ubound_le ks d) as Hu. pose proof (ubound_before ks d) as Hub. pose proof (lbound_before ks d) as Hlb. pose proof (ubound_at ks d) as Hua. pose proof (between ks d) as Hbt. pose proof (sofar_repeated d) as Hsr.
  set (i := lbound ks d) in *. set (u := ubound ks d) in *. clearbody i u.
  destruct (Nat.eq_dec u i) as [->|Hui].
  - (* no knot on the date *)
    destruct (Nat.eqb_spec i 0) as [->|Hi]; [unfold pwl_val; cbn [Nat.eqb]; unfold dt; rewrite !minus_IZR, plus_IZR; lra|]. unfold pwl_val. destruct (Nat.eqb_spec i 0); [lia|]. destruct (Nat.eqb_spec i (length ks)) as [->|Hlt].
    + unfold dt. rewrite !minus_IZR, plus_IZR. lra.
    + specialize (Hua ltac:(lia)). specialize (Hub (i - 1)%nat ltac:(lia)). set (a := nth (i - 1) ks 0%Z) in *. set (b := nth i ks 0%Z) in *. unfold dt. rewrite !minus_IZR, plus_IZR. assert (IZR a <> IZR b) by (intros Q; apply eq_IZR in Q; lia). field. lra.
  - (* knots i .. u-1 are the date *)
    assert (i < u)%nat as Hiu by lia. destruct (Nat.eqb_spec u 0); [lia|]. rewrite (Hsr (u - 1)%nat ltac:(lia)), (Hbt (u - 1)%nat Hks ltac:(lia)).
    assert ((if (i =? 0)%nat then - nth 0 fl 0 * dt (nth 0 ks 0%Z) d else nth (i - 1) s 0 + dt d (nth (i - 1) ks 0%Z) * ((nth (i - 1) fr 0 + pwl_val i d) / 2)) = nth i s 0) as ->.
    { pose proof (Hbt i Hks ltac:(lia)) as Ei. destruct (Nat.eqb_spec i 0) as [->|Hi]; [rewrite Ei, Hs0; unfold dt; rewrite Z.sub_diag; lra|]. pose proof (Hs (i - 1)%nat) as E. replace (S (i - 1)) with i in E by lia. rewrite E by lia. unfold pwl_val. destruct (Nat.eqb_spec i 0); [lia|]. destruct (Nat.eqb_spec i (length ks)); [lia|].
      rewrite Ei. assert (dt d (nth (i - 1) ks 0%Z) <> 0) as Hd by (unfold dt; apply not_0_IZR; specialize (Hlb (i - 1)%nat ltac:(lia)); lia). field. exact Hd. }
    unfold pwl_val. destruct (Nat.eqb_spec u 0); [lia|]. rewrite (Hbt (u - 1)%nat Hks ltac:(lia)). unfold dt at 1. replace (d + 1 - d)%Z with 1%Z by lia. destruct (Nat.eqb_spec u (length ks)) as [Hl|Hlt]; [lra|]. unfold dt. rewrite Z.sub_diag. replace (d + 1 - d)%Z with 1%Z by lia. field. apply not_0_IZR. specialize (Hua ltac:(lia)). lia.
Qed.
End Pwl.

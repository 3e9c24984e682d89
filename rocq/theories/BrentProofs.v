(** Proofs about the root finder. *)
From Coq Require Import Reals List Bool Lra Lia.
From Verif Require Import Base BrentModel BrentSpec.
Import ListNotations.
Open Scope R_scope.

Lemma rltb_spec x y : reflect (x < y) (rltb x y).
Proof. unfold rltb. destruct (Rlt_dec x y); now constructor. Qed.
Lemma rleb_spec x y : reflect (x <= y) (rleb x y).
Proof. unfold rleb. destruct (Rle_dec x y); now constructor. Qed.
Lemma reqb_spec x y : reflect (x = y) (reqb x y).
Proof. unfold reqb. destruct (Req_EM_T x y); now constructor. Qed.
Record inv (s : brent) : Prop := Inv { i_sign : sign_change s; i_a : snd (pa s) <> 0; i_d : bisect s = true \/ exists d, slot_d s = Val d }.
Lemma quotient_ok x y : y <> 0 -> quotient x y = Some (x / y).
Proof. intros H. unfold quotient. now destruct (reqb_spec y 0). Qed.
Lemma interpolated_ok s : inv s -> exists x, interpolated s = Some x.
Proof.
  intros [H1 H2 _]. unfold sign_change in H1. unfold interpolated. destruct (pa s) as [ax ay], (pb s) as [bx by_], (pc s) as [cx cy]. cbn [fst snd] in *.
  assert (ay <> by_) as Hab by (intros <-; nra). destruct (reqb_spec cy ay) as [E1|E1]; [|destruct (reqb_spec cy by_) as [E2|E2]]; cbn [negb andb].
  - rewrite quotient_ok by lra. eauto.
  - rewrite quotient_ok by lra. eauto.
  - rewrite !quotient_ok by (apply Rmult_integral_contrapositive_currified; lra). eauto.
Qed.
Ltac mm := unfold Rmin, Rmax in *; repeat match goal with |- context [Rle_dec ?a ?b] => destruct (Rle_dec a b) | H : context [Rle_dec ?a ?b] |- _ => destruct (Rle_dec a b) end.
(** the proposal *)
Lemma next_ok s : inv s -> exists x s1, next_x s = Ok (Val x, s1) /\ within (ends s) x /\ (fst (pa s) <> fst (pb s) -> x <> fst (pa s) /\ x <> fst (pb s)) /\
  pa s1 = pa s /\ pb s1 = pb s /\ pc s1 = pc s /\ tol s1 = tol s /\ slot_d s1 = Val x.
Proof.
  intros I. destruct (interpolated_ok s I) as [p Ep]. pose proof I as [_ _ Hd]. unfold next_x.
  assert (exists c, (if bisect s then Ok (Some (Rabs (fst (pc s) - fst (pb s)))) else match slot_d s with Unset => UB | NotANumber => Ok None | Val d => Ok (Some (Rabs (fst (pc s) - d))) end) = Ok (Some c)) as [c Ec].
  { destruct (bisect s); [eauto|]. destruct Hd as [Hd|[d ->]]; [discriminate|eauto]. }
  rewrite Ec. cbn [obind]. rewrite Ep. set (ax := fst (pa s)). set (bx := fst (pb s)). set (bis := _ || _ || _).
  assert (exists x, (if bis then Val (1 / 2 * (ax + bx)) else Val p) = Val x /\ (Rmin ax bx <= x <= Rmax ax bx) /\ (ax <> bx -> x <> ax /\ x <> bx)) as (x & Ex & Hx & Hs).
  { destruct bis eqn:Eb.
    - exists (1 / 2 * (ax + bx)). split; [reflexivity|]. split; [mm; lra|intros; lra].
    - exists p. split; [reflexivity|]. unfold bis in Eb. apply orb_false_elim in Eb as [Eb _]. apply orb_false_elim in Eb as [Eb _]. destruct (rleb_spec 0 ((p - bx) * (p - 3 / 4 * ax - 1 / 4 * bx))) as [|Hn]; [discriminate|].
      clear -Hn. assert ((p - bx) * (p - 3 / 4 * ax - 1 / 4 * bx) < 0) as Hn' by lra. split; [mm; nra|]. intros Hne. split; intros ->; nra. }
  rewrite Ex. exists x. eexists. split; [reflexivity|]. cbn [pa pb pc tol slot_d]. unfold within, ends. cbn [fst snd]. fold ax bx. auto 10.
Qed.
(** the report *)
Lemma put_ok s x y : inv s -> slot_d s = Val x -> within (ends s) x -> exists s', put_y s y = Ok s' /\ inv s' /\ subset (ends s') (ends s) /\ width s' <= width s /\
  (fst (pa s) <> fst (pb s) -> x <> fst (pa s) -> x <> fst (pb s) -> width s' < width s) /\
  (forall P : R * R -> Prop, P (pa s) -> P (pb s) -> P (x, y) -> P (pa s') /\ P (pb s')).
Proof.
  intros [H1 H2 H3] Hd Hw. unfold put_y. rewrite Hd. unfold sign_change, within, ends, subset, width in *. destruct (pa s) as [ax ay] eqn:Ea, (pb s) as [bx by_] eqn:Eb. cbn [fst snd] in *.
  destruct (rltb_spec 0 (y * ay)) as [Hy|Hy]; cbn [fst snd].
  - assert (y <> 0) as Hy0 by (intros ->; lra). assert (y * by_ <= 0) as Hs by (clear -H1 H2 Hy; destruct (Rle_lt_dec (y * by_) 0); [assumption|]; exfalso; assert (0 < (y * ay) * (y * by_)) by (now apply Rmult_lt_0_compat); nra).
    destruct (rltb_spec (Rabs y) (Rabs by_)) as [Hsw|Hsw]; eexists; (split; [reflexivity|]); cbn [pa pb fst snd].
    + split; [constructor; cbn [pa pb slot_d snd]; [unfold sign_change; cbn [pa pb snd]; lra|intros ->; rewrite Rabs_R0 in Hsw; pose proof (Rabs_pos y); lra|right; eauto]|]. clear -Hw. split; [mm; lra|]. unfold Rabs. split; [mm; repeat destruct Rcase_abs; lra|]. split; [intros; mm; repeat destruct Rcase_abs; lra|auto].
    + split; [constructor; cbn [pa pb slot_d snd]; [unfold sign_change; cbn [pa pb snd]; lra|assumption|right; eauto]|]. clear -Hw. split; [mm; lra|]. unfold Rabs. split; [mm; repeat destruct Rcase_abs; lra|]. split; [intros; mm; repeat destruct Rcase_abs; lra|auto].
  - destruct (rltb_spec (Rabs ay) (Rabs y)) as [Hsw|Hsw]; eexists; (split; [reflexivity|]); cbn [pa pb fst snd].
    + split; [constructor; cbn [pa pb slot_d snd]; [unfold sign_change; cbn [pa pb snd]; lra|intros ->; rewrite Rabs_R0 in Hsw; pose proof (Rabs_pos ay); lra|right; eauto]|]. clear -Hw. split; [mm; lra|]. unfold Rabs. split; [mm; repeat destruct Rcase_abs; lra|]. split; [intros; mm; repeat destruct Rcase_abs; lra|auto].
    + split; [constructor; cbn [pa pb slot_d snd]; [unfold sign_change; cbn [pa pb snd]; lra|assumption|right; eauto]|]. clear -Hw. split; [mm; lra|]. unfold Rabs. split; [mm; repeat destruct Rcase_abs; lra|]. split; [intros; mm; repeat destruct Rcase_abs; lra|auto].
Qed.
Lemma round_ok s f : inv s -> exists x s', (exists s1, next_x s = Ok (Val x, s1)) /\ round s f = Ok s' /\ inv s' /\ within (ends s) x /\ subset (ends s') (ends s) /\ width s' <= width s /\
  (fst (pa s) <> fst (pb s) -> width s' < width s) /\ (forall P : R * R -> Prop, P (pa s) -> P (pb s) -> P (x, f x) -> P (pa s') /\ P (pb s')).
Proof.
  intros I. destruct (next_ok s I) as (x & s1 & E & Hw & Hst & Ea & Eb & Ec & Et & Ed). exists x. unfold round. rewrite E. cbn [obind].
  assert (inv s1) as I1 by (destruct I as [A B C]; constructor; [unfold sign_change in *; now rewrite Ea, Eb|now rewrite Ea|right; eauto]).
  assert (ends s1 = ends s) as En by (unfold ends; now rewrite Ea, Eb). assert (width s1 = width s) as Wd by (unfold width; now rewrite Ea, Eb).
  destruct (put_ok s1 x (f x) I1 Ed) as (s' & P1 & P2 & P3 & P4 & P5 & P6); [now rewrite En|]. rewrite En, Wd, Ea, Eb in *. exists s'. split; [eauto|]. repeat (split; [assumption|]). split; [intros Hne; destruct (Hst Hne); now apply P5|exact P6].
Qed.
Lemma initialize_ok t d low high : snd low * snd high <= 0 -> snd low <> 0 \/ snd high <> 0 -> exists s, initialize t d low high = Ok s /\ inv s /\ ends s = (Rmin (fst low) (fst high), Rmax (fst low) (fst high)) /\
  ((pa s = low /\ pb s = high) \/ (pa s = high /\ pb s = low)).
Proof.
  intros H Hz. unfold initialize. destruct (rleb_spec (snd low * snd high) 0); [|lra]. destruct (rltb_spec (Rabs (snd low)) (Rabs (snd high))) as [Hs|Hs]; eexists; (split; [reflexivity|]); (split; [constructor; cbn [pa pb bisect snd]|]); auto.
  - unfold sign_change. cbn. lra.
  - intros E. rewrite E, Rabs_R0 in Hs. pose proof (Rabs_pos (snd low)). lra.
  - unfold ends. cbn. split; [now rewrite Rmin_comm, Rmax_comm|auto].
  - intros E. rewrite E, Rabs_R0 in Hs. destruct Hz as [Hz|Hz]; [congruence|]. apply Rabs_pos_lt in Hz. lra.
Qed.

(** * The hunt *)
Lemma exp1 : 1 < exp 1.
Proof. pose proof (exp_ineq1 1). lra. Qed.
Lemma big n x : 0 < n -> exists m, x < INR m * n.
Proof.
  intros H. exists (Z.to_nat (up (Rabs x / n))). destruct (archimed (Rabs x / n)) as [A _]. assert (0 <= Rabs x / n) as B by (apply Rmult_le_pos; [apply Rabs_pos|apply Rlt_le, Rinv_0_lt_compat, H]).
  assert (0 <= up (Rabs x / n))%Z as C by (apply le_IZR; lra). rewrite INR_IZR_INZ, Z2Nat.id by exact C. apply (Rmult_lt_compat_r n) in A; [|exact H]. unfold Rdiv in A at 1. rewrite Rmult_assoc, Rinv_l, Rmult_1_r in A by lra.
  pose proof (RRle_abs x). lra.
Qed.
Section HuntProofs.
Variable f : R -> R.
Variable r : R.
Hypothesis Hr : f r = 0.
Variable up : bool.
Hypothesis Hmono : if up then strictly_increasing f else strictly_decreasing f.
(** the sign of f tells the side of the root *)
Definition side (x : R) : R := pick (rltb (f x) 0) * pick up.
Lemma side_spec x : f x <> 0 -> (side x = 1 /\ x < r) \/ (side x = -1 /\ r < x).
Proof using Hr Hmono.
  intros Hx. unfold side, pick. unfold strictly_increasing, strictly_decreasing in Hmono. destruct (Rtotal_order x r) as [H|[H|H]]; [|congruence|]; destruct up.
  - pose proof (Hmono _ _ H). destruct (rltb_spec (f x) 0); [left; lra|lra].
  - pose proof (Hmono _ _ H). destruct (rltb_spec (f x) 0); [lra|left; lra].
  - pose proof (Hmono _ _ H). destruct (rltb_spec (f x) 0); [lra|right; lra].
  - pose proof (Hmono _ _ H). destruct (rltb_spec (f x) 0); [right; lra|lra].
Qed.
Lemma abs_nearer x y : 0 < f x * f y -> (x < y < r \/ r < y < x) -> Rabs (f y) < Rabs (f x).
Proof using Hr Hmono.
  intros Hxy H. unfold strictly_increasing, strictly_decreasing in Hmono.
  assert (x < y -> if up then f x < f y else f y < f x) as M1 by (intros; destruct up; now apply Hmono). assert (y < x -> if up then f y < f x else f x < f y) as M2 by (intros; destruct up; now apply Hmono).
  assert (y < r -> if up then f y < 0 else 0 < f y) as M3 by (intros; rewrite <- Hr; destruct up; now apply Hmono). assert (r < y -> if up then 0 < f y else f y < 0) as M4 by (intros; rewrite <- Hr; destruct up; now apply Hmono).
  destruct H as [[H1 H2]|[H1 H2]]; [specialize (M1 H1); specialize (M3 H2)|specialize (M2 H2); specialize (M4 H1)]; unfold Rabs; destruct up; repeat destruct Rcase_abs; nra.
Qed.
Lemma pos_of_neg_le a : ~ a <= 0 -> 0 < a.
Proof. lra. Qed.
(** what a round of the hunt does, going the right way *)
Lemma hunt_right n : forall k st t, 0 < st -> f k <> 0 -> Rabs (r - k) < INR n * st ->
  exists j b, search_rounds f j (Hunt (k, f k) (k + side k * st) st up t) = Ok (Bracketed b) /\ inv b.
Proof using Hr Hmono.
  induction n as [|n IH]; intros k st t Hst Hk Hd; [cbn in Hd; pose proof (Rabs_pos (r - k)); lra|].
  set (x := k + side k * st). assert (search_round (Hunt (k, f k) x st up t) f = search_put (Hunt (k, f k) x st up t) (f x)) as E by reflexivity.
  cbn [search_put snd fst] in E. destruct (rleb_spec (f x * f k) 0) as [Hb|Hb].
  - destruct (initialize_ok t (Val 0) (k, f k) (x, f x)) as (b & Eb & Ib & _); [cbn; lra|left; exact Hk|]. rewrite Eb in E. cbn [obind] in E. exists 1%nat, b. cbn [search_rounds]. rewrite E. auto.
  - apply pos_of_neg_le in Hb. assert (f x <> 0) as Hx by (intros Q; rewrite Q in Hb; lra).
    assert (k < x < r \/ r < x < k) as Hpos.
    { destruct (side_spec k Hk) as [[S1 P1]|[S1 P1]]; destruct (side_spec x Hx) as [[S2 P2]|[S2 P2]]; unfold x in *; rewrite S1 in *; try lra.
      - exfalso. unfold side in S1, S2. unfold pick in *. destruct (rltb_spec (f k) 0), (rltb_spec (f (k + 1 * st)) 0), up; try lra; nra.
      - exfalso. unfold side in S1, S2. unfold pick in *. destruct (rltb_spec (f k) 0), (rltb_spec (f (k + -1 * st)) 0), up; try lra; nra. }
    pose proof (abs_nearer k x ltac:(lra) Hpos) as Hn. destruct (rltb_spec (Rabs (f k)) (Rabs (f x))); [lra|].
    assert (side x = side k) as Es by (destruct (side_spec k Hk) as [[-> ?]|[-> ?]], (side_spec x Hx) as [[-> ?]|[-> ?]]; lra).
    cbn [fst snd] in E. pose proof exp1 as He. destruct (IH x (st * exp 1) t) as (j & b & Ej & Ib); [nra|exact Hx| |].
    + apply Rlt_le_trans with (INR n * st); [|apply Rmult_le_compat_l; [apply pos_INR|nra]]. rewrite S_INR in Hd. assert (Rabs (r - x) = Rabs (r - k) - st) as ->; [|lra].
      unfold x in *. destruct (side_spec k Hk) as [[S1 P1]|[S1 P1]]; rewrite S1 in *; unfold Rabs; repeat destruct Rcase_abs; lra.
    + exists (S j), b. cbn [search_rounds]. rewrite E. cbn [obind]. split; [|exact Ib].
      replace (pick up * pick (rltb (f x) 0) * (st * exp 1)) with (side x * (st * exp 1)) by (unfold side; ring). exact Ej.
Qed.
Lemma hunt_first k st t (incr : bool) : 0 < st -> exists j b, search_rounds f j (Hunt (k, f k) (k + pick incr * pick (rltb (f k) 0) * st) st incr t) = Ok (Bracketed b) /\ inv b.
Proof using Hr Hmono.
  intros Hst. destruct (Req_dec (f k) 0) as [Hz|Hk].
  - set (x := k + _). assert (search_round (Hunt (k, f k) x st incr t) f = search_put (Hunt (k, f k) x st incr t) (f x)) as E by reflexivity. cbn [search_put snd fst] in E.
    assert (f x <> 0) as Hx. { rewrite <- Hr. assert (k = r) as Ekr. { destruct (Rtotal_order k r) as [H|[H|H]]; [|exact H|]; unfold strictly_increasing, strictly_decreasing in Hmono; destruct up; pose proof (Hmono _ _ H); lra. }
      assert (x <> r) as Hxr by (unfold x, pick; rewrite Hz; destruct (rltb_spec 0 0), incr; lra). destruct (Rtotal_order x r) as [H|[H|H]]; [|congruence|]; unfold strictly_increasing, strictly_decreasing in Hmono; destruct up; pose proof (Hmono _ _ H); lra. }
    destruct (rleb_spec (f x * f k) 0) as [Hb|Hb]; [|rewrite Hz in Hb; lra]. destruct (initialize_ok t (Val 0) (k, f k) (x, f x)) as (b & Eb & Ib & _); [cbn; lra|right; exact Hx|]. rewrite Eb in E. cbn [obind] in E.
    exists 1%nat, b. cbn [search_rounds]. rewrite E. auto.
  - destruct (Bool.bool_dec incr up) as [->|Hne].
    + destruct (big st (Rabs (r - k)) Hst) as [n Hn]. destruct (hunt_right n k st t Hst Hk Hn) as (j & b & Ej & Ib). exists j, b. split; [|exact Ib].
      replace (pick up * pick (rltb (f k) 0) * st) with (side k * st) by (unfold side; ring). exact Ej.
    + assert (incr = negb up) as -> by (destruct incr, up; cbn; congruence). set (x := k + _). assert (x = k - side k * st) as Ex by (unfold x, side, pick; destruct up, (rltb (f k) 0); cbn; ring).
      assert (search_round (Hunt (k, f k) x st (negb up) t) f = search_put (Hunt (k, f k) x st (negb up) t) (f x)) as E by reflexivity. cbn [search_put snd fst] in E.
      assert (r < k < x \/ x < k < r) as Hpos by (destruct (side_spec k Hk) as [[S1 P1]|[S1 P1]]; rewrite S1 in Ex; lra).
      assert (0 < f x * f k) as Hsame.
      { assert (f x <> 0) as Hx. { intros Q. unfold strictly_increasing, strictly_decreasing in Hmono. destruct Hpos as [Hp|Hp]; destruct up; [pose proof (Hmono r x)|pose proof (Hmono r x)|pose proof (Hmono x r)|pose proof (Hmono x r)]; lra. }
        destruct (side_spec k Hk) as [[S1 P1]|[S1 P1]], (side_spec x Hx) as [[S2 P2]|[S2 P2]]; try lra; unfold side, pick in S1, S2; destruct (rltb_spec (f k) 0), (rltb_spec (f x) 0), up; try lra; nra. }
      destruct (rleb_spec (f x * f k) 0) as [Hb|Hb]; [lra|]. pose proof (abs_nearer x k Hsame ltac:(tauto)) as Hn. destruct (rltb_spec (Rabs (f k)) (Rabs (f x))); [|lra]. rewrite Bool.negb_involutive in E. cbn [fst snd] in E.
      pose proof exp1 as He. destruct (big (st * exp 1) (Rabs (r - k)) ltac:(nra)) as [n Hm]. destruct (hunt_right n k (st * exp 1) t ltac:(nra) Hk Hm) as (j & b & Ej & Ib). exists (S j), b. cbn [search_rounds]. rewrite E. cbn [obind]. split; [|exact Ib].
      replace (pick up * pick (rltb (f k) 0) * (st * exp 1)) with (side k * (st * exp 1)) by (unfold side; ring). exact Ej.
Qed.
Lemma search_ok guess t step : exists j b, search_rounds f j (new_search guess t step) = Ok (Bracketed b) /\ inv b.
Proof using Hr Hmono.
  unfold new_search. set (st := if rltb 0 step then step else _). assert (0 < st) as Hst by (unfold st; destruct (rltb_spec 0 step); [assumption|]; pose proof (Rmax_l (1 / 100) (Rabs guess)); lra).
  destruct (hunt_first guess st t true Hst) as (j & b & Ej & Ib). exists (S j), b. cbn [search_rounds search_round search_next obind search_put]. split; [|exact Ib].
  replace (guess + st * pick true * pick (rltb (f guess) 0)) with (guess + pick true * pick (rltb (f guess) 0) * st) by ring. exact Ej.
Qed.
End HuntProofs.

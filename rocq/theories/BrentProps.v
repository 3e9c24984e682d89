(** Property C40: the root finder never loses the bracket. *)
From Coq Require Import Reals List Bool Lra Lia.
From Verif Require Import Base BrentModel BrentSpec BrentProofs.
Import ListNotations.
Open Scope R_scope.

Lemma rounds_ok ys : forall s, inv s -> exists s', rounds s ys = Ok s' /\ inv s' /\ subset (ends s') (ends s) /\ width s' <= width s.
Proof.
  induction ys as [|y ys IH]; intros s I; [exists s; split; [reflexivity|]; split; [exact I|]; unfold subset; lra|].
  destruct (round_ok s (fun _ => y) I) as (x & s1 & _ & E & I1 & _ & Hs & Hw & _). destruct (IH s1 I1) as (s2 & E2 & I2 & Hs2 & Hw2). exists s2. cbn [rounds]. rewrite E. cbn [obind]. split; [exact E2|]. split; [exact I2|]. unfold subset in *. lra.
Qed.
Lemma start_ok low high t : snd low * snd high <= 0 -> snd low <> 0 \/ snd high <> 0 -> exists s, new_brent low high t = Ok s /\ inv s /\ ends s = (Rmin (fst low) (fst high), Rmax (fst low) (fst high)) /\ ((pa s = low /\ pb s = high) \/ (pa s = high /\ pb s = low)).
Proof. apply initialize_ok. Qed.

(** After any rounds, with any values reported, from any interval over which the values change sign: the interval
    still has a sign change, lies in the first one and is no wider; the next proposal is a number in it, different
    from its ends unless they coincide; and whatever is reported next the interval shrinks. *)
Theorem C40_bracket low high t ys : snd low * snd high <= 0 -> snd low <> 0 \/ snd high <> 0 ->
  exists s0 s, new_brent low high t = Ok s0 /\ ends s0 = (Rmin (fst low) (fst high), Rmax (fst low) (fst high)) /\ rounds s0 ys = Ok s /\
    sign_change s /\ subset (ends s) (ends s0) /\ width s <= width s0 /\
    exists x s1, next_x s = Ok (Val x, s1) /\ within (ends s) x /\ (fst (pa s) <> fst (pb s) -> fst (ends s) < x < snd (ends s)) /\
      forall y, exists s', put_y s1 y = Ok s' /\ sign_change s' /\ subset (ends s') (ends s) /\ width s' <= width s /\ (fst (pa s) <> fst (pb s) -> width s' < width s).
Proof.
  intros H1 H2. destruct (start_ok low high t H1 H2) as (s0 & E0 & I0 & En & _). destruct (rounds_ok ys s0 I0) as (s & Es & I & Hs & Hw). exists s0, s. repeat (split; [first [assumption|apply I]|]).
  destruct (next_ok s I) as (x & s1 & E & Hin & Hne & Ea & Eb & Ec & Et & Ed). exists x, s1. split; [exact E|]. split; [exact Hin|]. split.
  - intros Hd. destruct (Hne Hd) as [N1 N2]. unfold within, ends in *. cbn [fst snd] in *. mm; lra.
  - intros y. assert (inv s1) as I1 by (destruct I as [A B C]; constructor; [unfold sign_change in *; now rewrite Ea, Eb|now rewrite Ea|right; eauto]).
    assert (ends s1 = ends s) as En' by (unfold ends; now rewrite Ea, Eb). assert (width s1 = width s) as Wd by (unfold width; now rewrite Ea, Eb).
    destruct (put_ok s1 x y I1 Ed) as (s' & P1 & P2 & P3 & P4 & P5 & _); [now rewrite En'|]. rewrite En', Wd, Ea, Eb in *. exists s'. split; [exact P1|]. split; [apply P2|]. split; [exact P3|]. split; [exact P4|]. intros Hd. destruct (Hne Hd). now apply P5.
Qed.
Example C40_bracket_ex : snd (0, -1) * snd (2, 3) <= 0 /\ (snd (0, -1) <> 0 \/ snd (2, 3) <> 0).
Proof. cbn. lra. Qed.
Print Assumptions C40_bracket.

(** Both constructors refuse exactly the intervals without a sign change. *)
Theorem C40_refused low high t : (snd low * snd high <= 0 -> exists s, new_brent low high t = Ok s) /\ (0 < snd low * snd high -> new_brent low high t = Throw).
Proof.
  unfold new_brent, initialize. destruct (rleb_spec (snd low * snd high) 0) as [H|H]; (split; intros; [|try lra; try reflexivity]); [|lra]. destruct (rltb (Rabs (snd low)) (Rabs (snd high))); eauto.
Qed.
Example C40_refused_ex : 0 < snd (0, 1) * snd (2, 3). Proof. cbn. lra. Qed.
Print Assumptions C40_refused.

Definition on (f : R -> R) (p : R * R) : Prop := snd p = f (fst p).
Lemma rounds_of_ok f n : forall s, inv s -> on f (pa s) -> on f (pb s) -> exists s', rounds_of f n s = Ok s' /\ inv s' /\ on f (pa s') /\ on f (pb s') /\ subset (ends s') (ends s).
Proof.
  induction n as [|n IH]; intros s I Ha Hb; [exists s; unfold subset; repeat (split; [solve [auto; lra]|]); lra|].
  destruct (round_ok s f I) as (x & s1 & _ & E & I1 & _ & Hs & _ & _ & HP). destruct (HP (on f) Ha Hb) as [Ha1 Hb1]; [reflexivity|]. destruct (IH s1 I1 Ha1 Hb1) as (s2 & E2 & I2 & A2 & B2 & Hs2). exists s2. cbn [rounds_of]. rewrite E. cbn [obind]. repeat (split; [assumption|]). unfold subset in *. lra.
Qed.
Lemma has_root f s : continuity f -> sign_change s -> on f (pa s) -> on f (pb s) -> exists z, within (ends s) z /\ f z = 0.
Proof.
  intros Hc Hs Ha Hb. unfold sign_change, on in *. unfold within, ends. cbn [fst snd]. destruct (Rle_lt_dec (fst (pa s)) (fst (pb s))) as [H|H].
  - destruct (IVT_cor f (fst (pa s)) (fst (pb s)) Hc H ltac:(rewrite <- Ha, <- Hb; exact Hs)) as (z & Hz & Ez). exists z. split; [mm; lra|exact Ez].
  - destruct (IVT_cor f (fst (pb s)) (fst (pa s)) Hc ltac:(lra) ltac:(rewrite <- Ha, <- Hb; lra)) as (z & Hz & Ez). exists z. split; [mm; lra|exact Ez].
Qed.
(** When the values are those of a continuous function the interval always holds a root of it. *)
Theorem C40_root f low high t n : continuity f -> f low * f high <= 0 -> f low <> 0 \/ f high <> 0 ->
  exists s0 s, new_brent (low, f low) (high, f high) t = Ok s0 /\ rounds_of f n s0 = Ok s /\ subset (ends s) (Rmin low high, Rmax low high) /\
    exists z, within (ends s) z /\ f z = 0.
Proof.
  intros Hc H1 H2. destruct (start_ok (low, f low) (high, f high) t H1 H2) as (s0 & E0 & I0 & En & Hends). assert (on f (pa s0) /\ on f (pb s0)) as [Ha Hb] by (destruct Hends as [[-> ->]|[-> ->]]; now split).
  destruct (rounds_of_ok f n s0 I0 Ha Hb) as (s & Es & I & A & B & Hs). exists s0, s. split; [exact E0|]. split; [exact Es|]. split; [cbn [fst snd] in En; now rewrite <- En|]. apply has_root; auto. apply I.
Qed.
Example C40_root_ex : let f := fun x => x - 1 in continuity f /\ f 0 * f 3 <= 0 /\ (f 0 <> 0 \/ f 3 <> 0).
Proof. cbv zeta beta. split; [|split; [lra|left; lra]]. apply derivable_continuous. apply derivable_minus; [apply derivable_id|apply derivable_const]. Qed.
Print Assumptions C40_root.

Definition graph (f : R -> R) (s : search) : Prop :=
  match s with Start _ _ _ _ => True | Hunt k _ _ _ _ => on f k | Bracketed b => sign_change b /\ on f (pa b) /\ on f (pb b) end.
Lemma put_graph f s s1 x s' : graph f s -> search_next s = Ok (Val x, s1) -> search_put s1 (f x) = Ok s' -> graph f s'.
Proof.
  intros Hs E1 E2. destruct s as [x0 st i t'|k x0 st i t'|b'].
  - cbn [search_next] in E1. injection E1 as -> <-. cbn [search_put] in E2. injection E2 as <-. reflexivity.
  - cbn [search_next] in E1. injection E1 as -> <-. cbn [search_put] in E2. destruct (rleb_spec (f x * snd k) 0) as [Q|Q].
    + unfold initialize in E2. destruct (rleb _ 0); [|discriminate]. destruct (rltb _ _); cbn [obind] in E2; injection E2 as <-; cbn [graph pa pb]; unfold sign_change; cbn [pa pb snd]; (split; [lra|]); split; auto; reflexivity.
    + destruct (rltb _ _); injection E2 as <-; cbn; auto; reflexivity.
  - cbn [search_next] in E1. destruct (next_x b') as [[x1 b1]| | |] eqn:En; try discriminate. cbn [obind] in E1. injection E1 as -> <-. cbn [search_put] in E2. destruct (put_y b1 (f x)) as [b2| | |] eqn:Ep; try discriminate. cbn [obind] in E2. injection E2 as <-.
    unfold next_x in En. destruct (if bisect b' then _ else _) as [c| | |]; try discriminate. cbn [obind] in En. injection En as Ex <-. unfold put_y in Ep. cbn [slot_d pa pb pc] in Ep. rewrite Ex in Ep. destruct Hs as (S1 & S2 & S3). unfold sign_change in S1.
    destruct (rltb_spec 0 (f x * snd (pa b'))) as [Q|Q]; cbn [fst snd] in Ep.
    + assert (f x * snd (pb b') <= 0) as Hs by (destruct (Rle_lt_dec (f x * snd (pb b')) 0); [assumption|]; exfalso; assert (0 < (f x * snd (pa b')) * (f x * snd (pb b'))) by (now apply Rmult_lt_0_compat); nra).
      destruct (rltb _ _); injection Ep as <-; cbn [graph pa pb]; unfold sign_change; cbn [pa pb snd]; (split; [lra|]); split; auto; reflexivity.
    + destruct (rltb _ _); injection Ep as <-; cbn [graph pa pb]; unfold sign_change; cbn [pa pb snd]; (split; [lra|]); split; auto; reflexivity.
Qed.
Lemma rounds_graph f n : forall s s', graph f s -> search_rounds f n s = Ok s' -> graph f s'.
Proof.
  induction n as [|n IH]; intros s s' Hs E; [cbn in E; injection E as <-; exact Hs|]. cbn [search_rounds] in E. destruct (search_round s f) as [s1| | |] eqn:E1; try discriminate. cbn [obind] in E. apply (IH s1 s'); [|exact E].
  unfold search_round in E1. destruct (search_next s) as [[x s2]| | |] eqn:E2; try discriminate. cbn [obind] in E1. destruct x as [| |x]; try discriminate. now apply (put_graph f s s2 x s1).
Qed.
(** The search from a guess, for any function: whenever it has found a bracket, the ends are points where the function
    was evaluated and it changes sign between them; a continuous function has a root there. *)
Theorem C40_search f guess t step n b : search_rounds f n (new_search guess t step) = Ok (Bracketed b) ->
  f (fst (ends b)) * f (snd (ends b)) <= 0 /\ (continuity f -> exists z, within (ends b) z /\ f z = 0).
Proof.
  intros E. destruct (rounds_graph f n (new_search guess t step) _ Logic.I E) as (S1 & S2 & S3). split; [|intros Hc; now apply has_root].
  unfold sign_change, on, ends in *. cbn [fst snd]. unfold Rmin, Rmax. destruct (Rle_dec _ _); rewrite <- S2, <- S3; lra.
Qed.
Example C40_search_ex : exists b, search_rounds (fun x => x - 1) 2 (new_search 0 0 2) = Ok (Bracketed b).
Proof.
  unfold new_search. destruct (rltb_spec 0 2); [|lra]. cbn [search_rounds search_round search_next obind search_put fst snd]. unfold pick. destruct (rltb_spec (0 - 1) 0); [|lra]. destruct (rleb_spec ((0 + 2 * 1 * 1 - 1) * (0 - 1)) 0); [|lra].
  unfold initialize. cbn [fst snd]. destruct (rleb_spec ((0 - 1) * (0 + 2 * 1 * 1 - 1)) 0); [|lra]. destruct (rltb _ _); cbn [obind]; eauto.
Qed.
Print Assumptions C40_search.

(** From any guess, for every strictly monotone function with a root, the hunt ends with a bracket after finitely many
    rounds: from then on there is always an interval, with a sign change, and it holds the root. *)
Theorem C40_hunt f r guess t step : f r = 0 -> strictly_increasing f \/ strictly_decreasing f ->
  exists n, forall m, (n <= m)%nat -> exists b, search_rounds f m (new_search guess t step) = Ok (Bracketed b) /\ sign_change b /\ within (ends b) r.
Proof.
  intros Hr Hm. assert (exists j b, search_rounds f j (new_search guess t step) = Ok (Bracketed b) /\ inv b) as (j & b & Ej & Ib).
  { destruct Hm as [Hm|Hm]; [exact (search_ok f r Hr true Hm guess t step)|exact (search_ok f r Hr false Hm guess t step)]. }
  exists j. intros m Hjm. assert (forall k s s1, search_rounds f k s = Ok s1 -> forall q, search_rounds f (k + q) s = search_rounds f q s1) as Happ.
  { induction k as [|k IH]; intros s s1 E q; [cbn in E; now injection E as <-|]. cbn [search_rounds Nat.add] in *. destruct (search_round s f) as [s2| | |]; try discriminate. cbn [obind] in *. now apply IH. }
  assert (forall q b0, inv b0 -> exists b1, search_rounds f q (Bracketed b0) = Ok (Bracketed b1) /\ inv b1) as Hgo.
  { induction q as [|q IH]; intros b0 I0; [exists b0; auto|]. destruct (round_ok b0 f I0) as (x & b1 & [s1 En] & E & I1 & _). destruct (IH b1 I1) as (b2 & E2 & I2). exists b2. split; [|exact I2].
    cbn [search_rounds]. unfold search_round. cbn [search_next]. unfold round in E. rewrite En in *. cbn [obind] in *. cbn [search_put]. rewrite E. exact E2. }
  destruct (Hgo (m - j)%nat b Ib) as (b1 & E1 & I1). exists b1. pose proof (Happ _ _ _ Ej (m - j)%nat) as E. replace (j + (m - j))%nat with m in E by lia. rewrite E, E1. split; [reflexivity|]. split; [apply I1|].
  rewrite E1 in E. destruct (rounds_graph f m (new_search guess t step) _ Logic.I E) as (S1 & S2 & S3). unfold sign_change, on, within, ends in *. cbn [fst snd]. rewrite S2, S3 in S1. set (p := fst (pa b1)) in *. set (q := fst (pb b1)) in *. clearbody p q.
  assert (forall x y, (x < r /\ y < r) \/ (r < x /\ r < y) -> 0 < f x * f y) as Hpos.
  { intros x y Hxy. unfold strictly_increasing, strictly_decreasing in Hm. destruct Hm as [Hm|Hm], Hxy as [[A B]|[A B]]; apply Hm in A; apply Hm in B; nra. }
  destruct (Rle_lt_dec (Rmin p q) r) as [A|A]; [destruct (Rle_lt_dec r (Rmax p q)) as [B|B]; [lra|]|]; exfalso; pose proof (Hpos p q); mm; lra.
Qed.
Example C40_hunt_ex : let f := fun x => x - 1 in f 1 = 0 /\ strictly_increasing f. Proof. unfold strictly_increasing. cbv zeta beta. split; intros; lra. Qed.
Print Assumptions C40_hunt.

(** When the convergence test accepts, either the last value is small or a root lies in an interval narrower than the tolerance. *)
Theorem C40_converged f guess t step n s x s1 x_tol f_tol s' : continuity f -> search_rounds f n (new_search guess t step) = Ok s -> search_next s = Ok (Val x, s1) ->
  converged x_tol f_tol s1 (f x) = Ok (true, s') -> Rabs (f x) < f_tol \/ exists b z, s' = Bracketed b /\ within (ends b) z /\ f z = 0 /\ snd (ends b) - fst (ends b) < x_tol.
Proof.
  intros Hc E En Ec. unfold converged in Ec. destruct (search_put s1 (f x)) as [s2| | |] eqn:Ep; try discriminate. cbn [obind] in Ec. destruct (rltb_spec (Rabs (f x)) f_tol) as [H|H]; [now left|right]. cbn [orb] in Ec. destruct s2 as [| |b]; try discriminate.
  injection Ec as Ew <-. destruct (rltb_spec (width b) x_tol) as [Hw|]; [|discriminate]. pose proof (put_graph f s s1 x _ (rounds_graph f n (new_search guess t step) _ Logic.I E) En Ep) as (S1 & S2 & S3).
  destruct (has_root f b Hc S1 S2 S3) as (z & Hz & Ez). exists b, z. split; [reflexivity|]. split; [exact Hz|]. split; [exact Ez|]. unfold ends, width in *. cbn [fst snd]. unfold Rabs in Hw. mm; destruct Rcase_abs; lra.
Qed.
Example C40_converged_ex : let f := fun x => x - 1 in exists s' , converged 3 0 (Hunt (0, f 0) 2 2 true 0) (f 2) = Ok (true, s').
Proof.
  cbv zeta beta. unfold converged. cbn [search_put fst snd]. destruct (rleb_spec ((2 - 1) * (0 - 1)) 0); [|lra]. unfold initialize. cbn [fst snd]. destruct (rleb_spec ((0 - 1) * (2 - 1)) 0); [|lra].
  destruct (rltb_spec (Rabs (0 - 1)) (Rabs (2 - 1))) as [Q|Q]; cbn [obind]; unfold width; cbn [pa pb fst].
  - replace (rltb (Rabs (2 - 0)) 3) with true; [rewrite orb_true_r; eauto|]. destruct (rltb_spec (Rabs (2 - 0)) 3) as [|W]; [reflexivity|]. unfold Rabs in W. destruct Rcase_abs; lra.
  - replace (rltb (Rabs (0 - 2)) 3) with true; [rewrite orb_true_r; eauto|]. destruct (rltb_spec (Rabs (0 - 2)) 3) as [|W]; [reflexivity|]. unfold Rabs in W. destruct Rcase_abs; lra.
Qed.
Print Assumptions C40_converged.

(** The starting interval may have zeros at both ends: it is accepted, and then the proposal is not a number
    (unless the interval is narrower than the tolerance). *)
Theorem C40_both_zero_refuted a b t : t <= Rabs (a - b) -> exists s, new_brent (a, 0) (b, 0) t = Ok s /\ exists s1, next_x s = Ok (NotANumber, s1).
Proof.
  intros H. unfold new_brent, initialize. cbn [snd]. destruct (rleb_spec (0 * 0) 0); [|lra]. destruct (rltb_spec (Rabs 0) (Rabs 0)); [lra|]. eexists. split; [reflexivity|]. unfold next_x. cbn [bisect pa pb pc tol obind fst]. unfold interpolated. cbn [pa pb pc].
  destruct (reqb_spec 0 0); [|lra]. cbn [negb andb]. unfold quotient. destruct (reqb_spec (0 - 0) 0); [|lra]. destruct (reqb_spec (a * 0 - b * 0) 0); [|lra]. destruct (rltb_spec (Rabs (a - b)) t); [lra|]. eauto.
Qed.
Example C40_both_zero_ex : 0 <= Rabs (1 - 2). Proof. apply Rabs_pos. Qed.
Print Assumptions C40_both_zero_refuted.
(** Reporting a value before asking for a proposal reads an uninitialised number. *)
Theorem C40_report_first_refuted low high t s y : new_brent low high t = Ok s -> put_y s y = UB.
Proof.
  unfold new_brent, initialize. destruct (rleb _ 0); [|discriminate]. destruct (rltb _ _); intros E; injection E as <-; reflexivity.
Qed.
Example C40_report_first_ex : exists s, new_brent (0, -1) (1, 1) 0 = Ok s.
Proof. apply (C40_refused (0, -1) (1, 1) 0). cbn. lra. Qed.
Print Assumptions C40_report_first_refuted.

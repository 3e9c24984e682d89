(** Lemmas about the calibration of local volatilities. *)
From Coq Require Import ZArith Reals List Arith Bool Lia Lra.
From Verif Require Import Base Vec BlackModel BlackSpec BlackProofs InterpModel InterpSpec InterpProofs DateTimeModel FillModel FillSpec FillProofs DupireModel DupireProofs CalibModel CalibSpec.
Import ListNotations.
Local Open Scope R_scope.
Definition val (o : outcome R) : R := match o with Ok v => v | _ => 0 end.
Lemma steps_nth l : FillSpec.increasing l -> forall i j, (i < j < length l)%nat -> nth i l 0 < nth j l 0.
Proof.
  unfold FillSpec.increasing. induction 1 as [|x|x y l Hxy Hs IH]; intros i j Hij; cbn [length] in *; try lia.
  destruct j as [|j]; [lia|]. destruct i as [|i].
  - cbn [nth]. destruct j as [|j]; [exact Hxy|]. specialize (IH 0%nat (S j) ltac:(lia)). cbn [nth] in *. lra.
  - apply (IH i j). lia.
Qed.
Lemma first_spec lo l : FillSpec.increasing l -> forall i, (i < length l)%nat -> ((i < first_inside lo l)%nat <-> nth i l 0 < lo).
Proof.
  intros Hl. assert (M : forall i j, (i <= j < length l)%nat -> nth i l 0 <= nth j l 0).
  { intros i j H. destruct (Nat.eq_dec i j) as [->|N]; [lra|]. left. apply steps_nth; [exact Hl|lia]. } clear Hl.
  induction l as [|x l IH]; intros i Hi; cbn [length first_inside] in *; [lia|]. destruct (Rlt_dec x lo) as [H|H].
  - destruct i as [|i]; cbn [nth]; [split; [intros _; exact H|lia]|]. assert (Q : (i < first_inside lo l)%nat <-> nth i l 0 < lo) by (apply IH; [intros a b Hab; apply (M (S a) (S b)); lia|lia]). rewrite <- Q. symmetry. apply Nat.succ_lt_mono.
  - split; [lia|]. intros Hc. specialize (M 0%nat i ltac:(lia)). change (nth 0 (x :: l) 0) with x in M. lra.
Qed.
Lemma first_le lo l : (first_inside lo l <= length l)%nat.
Proof. induction l as [|x l IH]; cbn [first_inside length]; [lia|]. destruct (Rlt_dec x lo); lia. Qed.
Lemma past_spec hi l : FillSpec.increasing l -> forall n, (n <= length l)%nat -> (past_inside hi l n <= n)%nat /\ forall i, (i < n)%nat -> ((i < past_inside hi l n)%nat <-> nth i l 0 <= hi).
Proof.
  intros Hl. induction n as [|n IH]; intros Hn; cbn [past_inside]; [split; intros; lia|]. destruct (Rlt_dec hi (nth n l 0)) as [H|H].
  - destruct (IH ltac:(lia)) as [A B]. split; [lia|]. intros i Hi. destruct (Nat.eq_dec i n) as [->|N]; [split; [lia|lra]|apply B; lia].
  - split; [lia|]. intros i Hi. split; [|lia]. intros _. destruct (Nat.eq_dec i n) as [->|N]; [lra|]. pose proof (steps_nth l Hl i n ltac:(lia)). lra.
Qed.
Lemma vols_ok f (g : R -> R) spots : forall n i row, (i + n <= length spots)%nat -> length row = length spots -> (forall k, (i <= k < i + n)%nat -> f (nth k spots 0) = Ok (g (nth k spots 0))) ->
  exists row', vols_from f spots i n row = Ok row' /\ length row' = length row /\ forall j, nth j row' 0 = if (i <=? j)%nat && (j <? i + n)%nat then g (nth j spots 0) else nth j row 0.
Proof.
  induction n as [|n IH]; intros i row Hn Hl Hf; cbn [vols_from].
  - exists row. split; [reflexivity|]. split; [reflexivity|]. intros j. destruct (Nat.leb_spec i j), (Nat.ltb_spec j (i + 0)); cbn [andb]; try reflexivity. lia.
  - rewrite (get_ok spots i 0) by lia. cbn [obind]. rewrite (Hf i) by lia. cbn [obind]. rewrite put_ok by lia. cbn [obind].
    destruct (IH (S i) (set_nth row i (g (nth i spots 0)))) as (row' & E & L & N); [lia|rewrite set_nth_length; exact Hl|intros k Hk; apply Hf; lia|]. exists row'. split; [exact E|]. rewrite set_nth_length in L. split; [exact L|].
    intros j. rewrite N, nth_set_nth by lia. destruct (Nat.eqb_spec j i) as [->|Ne].
    + destruct (Nat.leb_spec (S i) i); [lia|]. destruct (Nat.leb_spec i i), (Nat.ltb_spec i (i + S n)); cbn [andb]; try reflexivity; lia.
    + destruct (Nat.leb_spec (S i) j), (Nat.leb_spec i j), (Nat.ltb_spec j (S i + n)), (Nat.ltb_spec j (i + S n)); cbn [andb]; try reflexivity; lia.
Qed.
Lemma flat_ok from : forall n i row, (from < length row)%nat -> (i + n <= length row)%nat -> (from < i \/ i + n <= from)%nat ->
  exists row', flat_from from i n row = Ok row' /\ length row' = length row /\ forall j, nth j row' 0 = if (i <=? j)%nat && (j <? i + n)%nat then nth from row 0 else nth j row 0.
Proof.
  induction n as [|n IH]; intros i row Hf Hn Ho; cbn [flat_from].
  - exists row. split; [reflexivity|]. split; [reflexivity|]. intros j. destruct (Nat.leb_spec i j), (Nat.ltb_spec j (i + 0)); cbn [andb]; try reflexivity. lia.
  - rewrite (get_ok row from 0) by lia. cbn [obind]. rewrite put_ok by lia. cbn [obind]. destruct (IH (S i) (set_nth row i (nth from row 0))) as (row' & E & L & N); [rewrite set_nth_length; lia|rewrite set_nth_length; lia|lia|].
    exists row'. split; [exact E|]. rewrite set_nth_length in L. split; [exact L|]. intros j. rewrite N, !nth_set_nth by lia.
    destruct (Nat.eqb_spec from i) as [->|N2]; [lia|]. destruct (Nat.eqb_spec j i) as [->|Ne].
    + destruct (Nat.leb_spec (S i) i); [lia|]. destruct (Nat.leb_spec i i), (Nat.ltb_spec i (i + S n)); cbn [andb]; try reflexivity; lia.
    + destruct (Nat.leb_spec (S i) j), (Nat.leb_spec i j), (Nat.ltb_spec j (S i + n)), (Nat.ltb_spec j (i + S n)); cbn [andb]; try reflexivity; lia.
Qed.
Section Calib.
Variable N : R -> R.
Lemma maturity_ok s mat spots risk row atm : FillSpec.increasing spots -> length row = length spots -> call N s None (spot_ s) mat = Ok atm ->
  let d := half_width atm in (exists x, In x spots /\ in_band (spot_ s) d x) -> (forall x, In x spots -> in_band (spot_ s) d x -> exists v, local_vol N s (Some risk) x mat = Ok v) ->
  exists row', calib_maturity N s mat spots risk row = Ok row' /\ length row' = length spots /\
    forall i, (i < length spots)%nat -> exists x, stands_for (spot_ s) d spots (nth i spots 0) x /\ local_vol N s (Some risk) x mat = Ok (nth i row' 0).
Proof.
  intros Hi Hl Ea d (x0 & Hx0 & B0) Hv. unfold calib_maturity. rewrite Ea. cbn [obind]. change (5 / 2 * (atm * (2506628274631 / 10 ^ 12))) with d.
  set (lo := spot_ s - d). set (hi := spot_ s + d). pose proof (first_spec lo spots Hi) as F1. pose proof (first_le lo spots) as F2. destruct (past_spec hi spots Hi (length spots) (le_n _)) as [P1 P2].
  set (il := first_inside lo spots) in *. set (past := past_inside hi spots (length spots)) in *. assert (Hmid : (il < past)%nat).
  { destruct (In_nth spots x0 0 Hx0) as (k & Hk & Ek). destruct (Nat.lt_ge_cases k il) as [C|C]; [apply F1 in C; [|exact Hk]; rewrite Ek in C; destruct B0; unfold lo in *; lra|].
    assert (k < past)%nat; [|lia]. apply P2; [exact Hk|]. rewrite Ek. exact (proj2 B0). }
  assert (Hb : forall k, (il <= k < past)%nat -> in_band (spot_ s) d (nth k spots 0)).
  { intros k Hk. split; [|apply P2; lia]. destruct (Rlt_dec (nth k spots 0) lo) as [C|C]; [apply F1 in C; lia|fold lo; lra]. }
  set (g := fun x => val (local_vol N s (Some risk) x mat)).
  assert (Hg : forall k, (il <= k < past)%nat -> local_vol N s (Some risk) (nth k spots 0) mat = Ok (g (nth k spots 0))).
  { intros k Hk. unfold g. destruct (Hv (nth k spots 0)) as (v & Ev); [apply nth_In; lia|apply Hb; exact Hk|]. rewrite Ev. reflexivity. }
  destruct (vols_ok (fun x => local_vol N s (Some risk) x mat) g spots (past - il) il row) as (r1 & E1 & L1 & N1); [lia|exact Hl|intros k Hk; apply Hg; lia|]. rewrite E1. cbn [obind].
  destruct (flat_ok il il 0 r1) as (r2 & E2 & L2 & N2); [lia|lia|lia|]. rewrite E2. cbn [obind]. destruct past as [|ih] eqn:Ep; [lia|]. destruct (flat_ok ih (length spots - S ih) (S ih) r2) as (r3 & E3 & L3 & N3); [lia|lia|lia|].
  exists r3. split; [exact E3|]. split; [lia|]. intros i Hli. set (k := Nat.max il (Nat.min ih i)). exists (nth k spots 0).
  assert (Ek : nth i r3 0 = g (nth k spots 0)).
  { rewrite N3. destruct (Nat.leb_spec (S ih) i), (Nat.ltb_spec i (S ih + (length spots - S ih))); cbn [andb]; try lia.
    - rewrite N2. destruct (Nat.leb_spec 0 ih), (Nat.ltb_spec ih (0 + il)); cbn [andb]; try lia. rewrite N1. destruct (Nat.leb_spec il ih), (Nat.ltb_spec ih (il + (S ih - il))); cbn [andb]; try lia. f_equal. f_equal. unfold k. lia.
    - rewrite N2. destruct (Nat.leb_spec 0 i), (Nat.ltb_spec i (0 + il)); cbn [andb]; try lia.
      + rewrite N1. destruct (Nat.leb_spec il il), (Nat.ltb_spec il (il + (S ih - il))); cbn [andb]; try lia. f_equal. f_equal. unfold k. lia.
      + rewrite N1. destruct (Nat.leb_spec il i), (Nat.ltb_spec i (il + (S ih - il))); cbn [andb]; try lia. f_equal. f_equal. unfold k. lia. }
  rewrite Ek, Hg by (unfold k; lia). split; [|reflexivity]. split; [apply nth_In; unfold k; lia|]. split; [apply Hb; unfold k; lia|].
  assert (Hle : forall a b, (a <= b < length spots)%nat -> nth a spots 0 <= nth b spots 0) by (intros a b H; destruct (Nat.eq_dec a b) as [->|Ne]; [lra|]; left; apply steps_nth; [exact Hi|lia]).
  split; [|split].
  - intros [A B]. f_equal. unfold k. assert (~ (i < il)%nat) by (intros C; apply F1 in C; [fold lo in A; lra|exact Hli]). apply P2 in B; [lia|exact Hli].
  - intros C y Hy [A B]. apply F1 in C; [|exact Hli]. destruct (In_nth spots y 0 Hy) as (m & Hm & <-). apply Hle. assert (~ (m < il)%nat) by (intros D; apply F1 in D; [fold lo in A; lra|exact Hm]). unfold k. lia.
  - intros C y Hy [A B]. assert (~ (i < S ih)%nat) by (intros D; apply P2 in D; [fold hi in C; lra|exact Hli]). destruct (In_nth spots y 0 Hy) as (m & Hm & <-). apply Hle. apply P2 in B; [|exact Hm]. unfold k. lia.
Qed.
End Calib.

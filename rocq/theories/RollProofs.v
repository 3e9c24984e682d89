(** Proofs for C90. *)
From Coq Require Import Reals List Arith Bool Lia Lra.
From Verif Require Import Base Vec InterpModel InterpSpec BandModel BandSpec BandProofs PdeSpec PdeProofs PdeProps RollSpec.
Import ListNotations.
Local Open Scope R_scope.

Lemma abs_between z e : Rabs z <= e -> - e <= z <= e.
Proof. unfold Rabs. destruct (Rcase_abs z); lra. Qed.
Lemma sum_le n f g : (forall j, (j < n)%nat -> f j <= g j) -> sum n f <= sum n g.
Proof. intros H. assert (0 <= sum n (fun j => g j + -1 * f j)) by (apply sum_nonneg; intros j Hj; specialize (H j Hj); lra). rewrite sum_plus, sum_scal in H0. lra. Qed.
Lemma sum_identity n i x : (i < n)%nat -> sum n (fun j => identity i j * x j) = x i.
Proof.
  intros Hi. rewrite (sum_ext n _ (fun j => if (j =? i)%nat then x i else 0)).
  - rewrite sum_one. destruct (Nat.ltb_spec i n); [reflexivity|lia].
  - intros j _. unfold identity. rewrite Nat.eqb_sym. destruct (Nat.eqb_spec j i); [subst|]; ring.
Qed.
Lemma biggest n (b : nat -> R) : (0 < n)%nat -> exists k, (k < n)%nat /\ forall j, (j < n)%nat -> b j <= b k.
Proof.
  induction n as [|n IH]; intros H; [lia|]. destruct n as [|n]; [exists O; split; [lia|]; intros [|j] Hj; [lra|lia]|]. destruct IH as (k & Hk & Hm); [lia|].
  destruct (Rle_dec (b k) (b (S n))) as [L|L].
  - exists (S n). split; [lia|]. intros j Hj. destruct (Nat.eq_dec j (S n)) as [->|]; [lra|]. specialize (Hm j ltac:(lia)). lra.
  - exists k. split; [lia|]. intros j Hj. destruct (Nat.eq_dec j (S n)) as [->|]; [lra|]. apply Hm. lia.
Qed.
Section Step.
Variables (n : nat) (g : nat -> nat -> R) (dt th : R).
Hypothesis Hdt : 0 <= dt.
Hypothesis Hth : 0 <= th <= 1.
Hypothesis Hoff : forall i j, (i < n)%nat -> (j < n)%nat -> i <> j -> 0 <= g i j.
Hypothesis Hrow : forall i, (i < n)%nat -> sum n (g i) <= 0.
Hypothesis Hexp : forall i, (i < n)%nat -> 0 <= 1 + dt * (1 - th) * g i i.
Lemma explicit_le a A i : (i < n)%nat -> (forall j, (j < n)%nat -> a j <= A) -> 0 <= A -> sum n (fun j => (identity i j + dt * (1 - th) * g i j) * a j) <= A.
Proof.
  intros Hi Ha HA. assert (0 <= dt * (1 - th)) by (apply Rmult_le_pos; lra). apply Rle_trans with (sum n (fun j => (identity i j + dt * (1 - th) * g i j) * A)).
  - apply sum_le. intros j Hj. apply Rmult_le_compat_l; [|now apply Ha]. unfold identity. destruct (Nat.eqb_spec i j) as [->|Hne]; [now apply Hexp|]. pose proof (Hoff i j Hi Hj Hne). nra.
  - rewrite (sum_ext n _ (fun j => identity i j * A + dt * (1 - th) * A * g i j)) by (intros; ring). rewrite sum_plus, sum_scal, (sum_identity n i (fun _ => A) Hi). pose proof (Hrow i Hi). change (fun j => g i j) with (g i). assert (0 <= dt * (1 - th) * A) by nra. nra.
Qed.
Lemma implicit_ge b k : (k < n)%nat -> (forall j, (j < n)%nat -> b j <= b k) -> 0 <= b k -> b k <= sum n (fun j => (identity k j - dt * th * g k j) * b j).
Proof.
  intros Hk Hm Hb. rewrite (sum_ext n _ (fun j => identity k j * b j + - (dt * th) * (g k j * b j))) by (intros; ring). rewrite sum_plus, sum_scal, (sum_identity n k b Hk).
  assert (sum n (fun j => g k j * b j) <= sum n (fun j => b k * g k j)) as H.
  { apply sum_le. intros j Hj. destruct (Nat.eq_dec k j) as [->|Hne]; [lra|]. pose proof (Hoff k j Hk Hj Hne). specialize (Hm j Hj). nra. }
  rewrite sum_scal in H. change (fun j => g k j) with (g k) in H. pose proof (Hrow k Hk). assert (0 <= dt * th) by nra. assert (b k * sum n (g k) <= 0) by nra. nra.
Qed.
Lemma key a b A e : (forall j, (j < n)%nat -> a j <= A) -> 0 <= A -> 0 <= e ->
  (forall i, (i < n)%nat -> sum n (fun j => (identity i j - dt * th * g i j) * b j) - sum n (fun j => (identity i j + dt * (1 - th) * g i j) * a j) <= e) ->
  forall i, (i < n)%nat -> b i <= A + e.
Proof.
  intros Ha HA He Hd i Hi. destruct (biggest n b ltac:(lia)) as (k & Hk & Hm). apply Rle_trans with (b k); [now apply Hm|]. destruct (Rle_dec (b k) 0) as [L|L]; [lra|].
  pose proof (implicit_ge b k Hk Hm ltac:(lra)). pose proof (explicit_le a A k Hk Ha HA). specialize (Hd k Hk). lra.
Qed.
(** two histories compared *)
Lemma defect_minus (a b a' b' : nat -> R) i :
  sum n (fun j => (identity i j - dt * th * g i j) * (b j - b' j)) - sum n (fun j => (identity i j + dt * (1 - th) * g i j) * (a j - a' j)) =
  (sum n (fun j => (identity i j - dt * th * g i j) * b j) - sum n (fun j => (identity i j + dt * (1 - th) * g i j) * a j)) -
  (sum n (fun j => (identity i j - dt * th * g i j) * b' j) - sum n (fun j => (identity i j + dt * (1 - th) * g i j) * a' j)).
Proof.
  rewrite (sum_ext n (fun j => (identity i j - dt * th * g i j) * (b j - b' j)) (fun j => (identity i j - dt * th * g i j) * b j + -1 * ((identity i j - dt * th * g i j) * b' j))) by (intros; ring).
  rewrite (sum_ext n (fun j => (identity i j + dt * (1 - th) * g i j) * (a j - a' j)) (fun j => (identity i j + dt * (1 - th) * g i j) * a j + -1 * ((identity i j + dt * (1 - th) * g i j) * a' j))) by (intros; ring).
  rewrite !sum_plus, !sum_scal. ring.
Qed.
Lemma compare a b a' b' A e : 0 <= A -> 0 <= e -> (forall j, (j < n)%nat -> nth j a 0 - nth j a' 0 <= A) ->
  (forall i, (i < n)%nat -> defect n g dt th a b i - defect n g dt th a' b' i <= e) -> forall i, (i < n)%nat -> nth i b 0 - nth i b' 0 <= A + e.
Proof.
  intros HA He Ha Hd i Hi. apply (key (fun j => nth j a 0 - nth j a' 0) (fun j => nth j b 0 - nth j b' 0)); try assumption. intros k Hk. rewrite (defect_minus (fun j => nth j a 0) (fun j => nth j b 0) (fun j => nth j a' 0) (fun j => nth j b' 0)). now apply Hd.
Qed.
End Step.
Lemma theta_no_defect n g dt th a b : theta_step n g dt th a b -> forall i, (i < n)%nat -> defect n g dt th a b i = 0.
Proof. intros (mid & [_ P] & [_ Q]) i Hi. unfold defect. rewrite <- Q, <- P by exact Hi. ring. Qed.
Section Setup.
Variables (x : mesh) (td tdd : tri) (d dd : nat -> nat -> R).
Let n := length (locations x).
Hypothesis G : grid x.
Hypothesis Ed : dx_op x = Ok td.
Hypothesis Edd : dxx_op x = Ok tdd.
Hypothesis Rd : reads td n d.
Hypothesis Rdd : reads tdd n dd.
Lemma gen_row c i : (forall i, (i < n)%nat -> 0 <= nth i (c_rate c) 0) -> (i < n)%nat -> sum n (generator_of n d dd c i) <= 0.
Proof.
  intros Hr Hi. destruct (Nat.eq_dec i 0) as [->|N0]; [|destruct (Nat.eq_dec (S i) n) as [N1|N1]].
  - rewrite (sum_ext n _ (fun _ => 0)); [rewrite sum_zero; lra|]. intros; reflexivity.
  - rewrite (sum_ext n _ (fun _ => 0)); [rewrite sum_zero; lra|]. intros; unfold generator_of, generator. destruct (Nat.ltb_spec (S i) n); [lia|]. now rewrite andb_false_r.
  - change (sum n (fun j => generator_of n d dd c i j) <= 0). unfold n. rewrite (generator_row x d dd c i G); [specialize (Hr i Hi); lra|split; fold n; lia|exact (reads_diff _ _ _ _ G Ed Rd)|exact (reads_diff _ _ _ _ G Edd Rdd)].
Qed.
Lemma gen_off c i j : positive_weights n d dd c -> (i < n)%nat -> (j < n)%nat -> i <> j -> 0 <= generator_of n d dd c i j.
Proof.
  intros Hw Hi Hj Hij. destruct (Nat.eq_dec i 0) as [->|N0]; [unfold generator_of, generator; cbn; lra|]. destruct (Nat.eq_dec (S i) n) as [N1|N1].
  - unfold generator_of, generator. destruct (Nat.ltb_spec (S i) n); [lia|]. rewrite andb_false_r. lra.
  - apply Hw; [split; lia|exact Hj|exact Hij].
Qed.
Lemma stable_compare c a b a' b' A e : stable n d dd c -> 0 <= A -> 0 <= e -> (forall j, (j < n)%nat -> nth j a 0 - nth j a' 0 <= A) ->
  (forall i, (i < n)%nat -> defect n (generator_of n d dd c) (c_dt c) (c_theta c) a b i - defect n (generator_of n d dd c) (c_dt c) (c_theta c) a' b' i <= e) ->
  forall i, (i < n)%nat -> nth i b 0 - nth i b' 0 <= A + e.
Proof.
  intros (S1 & S2 & S3 & S4 & S5). apply compare; try assumption.
  - intros i j Hi Hj Hij. now apply gen_off.
  - intros i Hi. now apply gen_row.
Qed.
Lemma steps_monotone : forall cs a b a' b', Forall (stable n d dd) cs -> theta_steps n d dd cs a b -> theta_steps n d dd cs a' b' ->
  (forall i, (i < n)%nat -> nth i a 0 <= nth i a' 0) -> forall i, (i < n)%nat -> nth i b 0 <= nth i b' 0.
Proof.
  induction cs as [|c cs IH]; intros a b a' b' Hs T T' H; cbn [theta_steps] in T, T'; [subst; exact H|]. apply Forall_cons_iff in Hs. destruct Hs as [Hc Hs]. destruct T as (m & _ & T1 & T2). destruct T' as (m' & _ & T1' & T2').
  apply (IH m b m' b' Hs T2 T2'). intros i Hi. pose proof (stable_compare c a m a' m' 0 0 Hc ltac:(lra) ltac:(lra)) as K. enough (nth i m 0 - nth i m' 0 <= 0 + 0) by lra. apply K; [intros j Hj; specialize (H j Hj); lra| |exact Hi].
  intros j Hj. rewrite !(theta_no_defect) by assumption. lra.
Qed.
Lemma steps_error : forall cs a b w ws e e0, Forall (stable n d dd) cs -> theta_steps n d dd cs a b -> nearly n d dd e cs w ws -> 0 <= e -> 0 <= e0 ->
  (forall i, (i < n)%nat -> Rabs (nth i a 0 - nth i w 0) <= e0) -> forall i, (i < n)%nat -> Rabs (nth i b 0 - nth i (last ws w) 0) <= e0 + e * elapsed cs.
Proof.
  induction cs as [|c cs IH]; intros a b w ws e e0 Hs T Hn He He0 H; destruct ws as [|w' ws]; cbn [theta_steps nearly] in T, Hn; try contradiction.
  - subst. intros i Hi. cbn. rewrite Rmult_0_r, Rplus_0_r. now apply H.
  - apply Forall_cons_iff in Hs. destruct Hs as [Hc Hs]. destruct T as (m & _ & T1 & T2). destruct Hn as (_ & Hd & Hn). pose proof (proj1 Hc) as Hdt. assert (0 <= c_dt c * e) by nra.
    intros i Hi. change (elapsed (c :: cs)) with (c_dt c + elapsed cs). replace (e0 + e * (c_dt c + elapsed cs)) with ((e0 + c_dt c * e) + e * elapsed cs) by ring.
    replace (last (w' :: ws) w) with (last ws w') by (clear; revert w'; induction ws as [|u ws IH]; intros w'; [reflexivity|]; cbn [last] in *; destruct ws; [reflexivity|apply IH]).
    apply (IH m b w' ws e (e0 + c_dt c * e) Hs T2 Hn He); [lra| |exact Hi]. intros j Hj. apply Rabs_le. split.
    + enough (nth j w' 0 - nth j m 0 <= e0 + c_dt c * e) by lra. apply (stable_compare c w w' a m e0 (c_dt c * e) Hc He0 H0); [| |exact Hj].
      * intros k Hk. specialize (H k Hk). apply abs_between in H. lra.
      * intros k Hk. rewrite (theta_no_defect _ _ _ _ _ _ T1 k Hk). specialize (Hd k Hk). apply abs_between in Hd. lra.
    + apply (stable_compare c a m w w' e0 (c_dt c * e) Hc He0 H0); [| |exact Hj].
      * intros k Hk. specialize (H k Hk). apply abs_between in H. lra.
      * intros k Hk. rewrite (theta_no_defect _ _ _ _ _ _ T1 k Hk). specialize (Hd k Hk). apply abs_between in Hd. lra.
Qed.
End Setup.

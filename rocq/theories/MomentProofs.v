(** Proofs for C89. *)
From Coq Require Import Reals List Lra Lia.
From Coquelicot Require Import Coquelicot.
From Verif Require Import Base BlackModel BlackSpec BlackProofs ExpectSpec ExpectProofs MomentSpec BsSpec BsProofs.
Import ListNotations.
Local Open Scope R_scope.

Record expects {A : Type} (E : (A -> R) -> R -> Prop) : Prop := {
  ex_ext : forall f g x, (forall a, f a = g a) -> E f x -> E g x;
  ex_lin : forall f g x y c d, E f x -> E g y -> E (fun a => c * f a + d * g a) (c * x + d * y);
  ex_const : forall c, E (fun _ => c) c;
  ex_unique : forall f x y, E f x -> E f y -> x = y }.
Lemma ex_val {A} (E : (A -> R) -> R -> Prop) f x y : x = y -> E f x -> E f y.
Proof. now intros ->. Qed.
Section Repeat.
Context {A : Type} (E : (A -> R) -> R -> Prop).
Hypothesis HE : expects E.
Lemma rep_ext k : forall f g x, (forall l, length l = k -> f l = g l) -> repeated E k f x -> repeated E k g x.
Proof.
  induction k as [|k IH]; intros f g x H R; cbn [repeated] in *; [rewrite <- H; [exact R|reflexivity]|].
  destruct R as (h & Hh & Hm). exists h. split; [|exact Hm]. intros a. apply IH with (fun l => f (a :: l)); [|apply Hh]. intros l Hl. apply H. cbn. now rewrite Hl.
Qed.
Lemma rep_lin k : forall f g x y c d, repeated E k f x -> repeated E k g y -> repeated E k (fun l => c * f l + d * g l) (c * x + d * y).
Proof.
  induction k as [|k IH]; intros f g x y c d Rf Rg; cbn [repeated] in *; [now rewrite Rf, Rg|].
  destruct Rf as (h & Hh & Hm). destruct Rg as (h' & Hh' & Hm'). exists (fun a => c * h a + d * h' a). split; [|now apply (ex_lin E HE)].
  intros a. apply (IH (fun l => f (a :: l)) (fun l => g (a :: l))); [apply Hh|apply Hh'].
Qed.
Lemma rep_const k : forall c, repeated E k (fun _ => c) c.
Proof. induction k as [|k IH]; intros c; cbn [repeated]; [reflexivity|]. exists (fun _ => c). split; [intros a; apply IH|apply (ex_const E HE)]. Qed.
Lemma rep_unique k : forall f x y, repeated E k f x -> repeated E k f y -> x = y.
Proof.
  induction k as [|k IH]; intros f x y R1 R2; cbn [repeated] in *; [congruence|]. destruct R1 as (g & Hg & Hm). destruct R2 as (h & Hh & Hk).
  apply (ex_unique E HE g); [exact Hm|]. apply (ex_ext E HE h); [|exact Hk]. intros a. symmetry. now apply (IH (fun l => f (a :: l))).
Qed.
Lemma rep_expects k : expects (repeated E k).
Proof. constructor; [intros f g x H; apply rep_ext; auto|apply rep_lin|apply rep_const|apply rep_unique]. Qed.
Lemma total_from (f : A -> R) l c : fold_left Rplus (map f l) c = c + total f l.
Proof.
  unfold total. revert c. induction l as [|a l IH]; intros c; cbn; [lra|]. rewrite IH, (IH (0 + f a)). lra.
Qed.
Lemma total_cons (f : A -> R) a l : total f (a :: l) = f a + total f l.
Proof. unfold total at 1. cbn [map fold_left]. rewrite total_from. lra. Qed.
Lemma rep_total k : forall f x c, E f x -> repeated E k (fun l => c + total f l) (c + INR k * x).
Proof.
  induction k as [|k IH]; intros f x c Hf; [cbn; unfold total; cbn; lra|]. cbn [repeated]. exists (fun a => (c + f a) + INR k * x). split.
  - intros a. apply rep_ext with (fun l => (c + f a) + total f l); [|apply IH, Hf]. intros l _. rewrite total_cons. lra.
  - rewrite S_INR. apply (ex_val E _ (1 * x + 1 * (c + INR k * x))); [lra|]. apply (ex_ext E HE (fun a => 1 * f a + 1 * (c + INR k * x))); [intros a; lra|]. apply (ex_lin E HE); [exact Hf|apply (ex_const E HE)].
Qed.
Lemma rep_square k : forall f x v c, E f x -> E (fun a => (f a - x) * (f a - x)) v ->
  repeated E k (fun l => (c + (total f l - INR (length l) * x)) * (c + (total f l - INR (length l) * x))) (c * c + INR k * v).
Proof.
  induction k as [|k IH]; intros f x v c Hf Hv; [cbn; unfold total; cbn; lra|]. cbn [repeated]. exists (fun a => (c + (f a - x)) * (c + (f a - x)) + INR k * v). split.
  - intros a. eapply rep_ext; [|apply (IH f x v (c + (f a - x))); assumption]. intros l _. cbn beta. rewrite total_cons. change (length (a :: l)) with (S (length l)). rewrite S_INR. ring.
  - rewrite S_INR. apply (ex_val E _ (1 * (1 * v + 2 * c * x) + 1 * (c * c - 2 * c * x + INR k * v))); [ring|].
    apply (ex_ext E HE (fun a => 1 * (1 * ((f a - x) * (f a - x)) + 2 * c * f a) + 1 * (c * c - 2 * c * x + INR k * v))); [intros a; ring|].
    apply (ex_lin E HE (fun a => 1 * ((f a - x) * (f a - x)) + 2 * c * f a) (fun _ => c * c - 2 * c * x + INR k * v)); [|apply (ex_const E HE)].
    apply (ex_lin E HE (fun a => (f a - x) * (f a - x)) f); assumption.
Qed.
Lemma rep_average k f x : (0 < k)%nat -> E f x -> repeated E k (average f) x.
Proof.
  intros Hk Hf. assert (Hp : 0 < INR k) by now apply lt_0_INR. apply (ex_val _ _ (/ INR k * (0 + INR k * x) + 0 * 0)); [field; lra|].
  eapply rep_ext; [|apply (rep_lin k _ (fun _ => 0) _ _ (/ INR k) 0 (rep_total k f x 0 Hf) (rep_const k 0))]. intros l Hl. cbn beta. unfold average. rewrite Hl. field. lra.
Qed.
Lemma rep_error k f x v : (0 < k)%nat -> E f x -> E (fun a => (f a - x) * (f a - x)) v -> repeated E k (fun l => (average f l - x) * (average f l - x)) (v / INR k).
Proof.
  intros Hk Hf Hv. assert (Hp : 0 < INR k) by now apply lt_0_INR. apply (ex_val _ _ (/ (INR k * INR k) * (0 * 0 + INR k * v) + 0 * 0)); [field; lra|].
  eapply rep_ext; [|apply (rep_lin k _ (fun _ => 0) _ _ (/ (INR k * INR k)) 0 (rep_square k f x v 0 Hf Hv) (rep_const k 0))]. intros l Hl. cbn beta. unfold average. rewrite Hl. field. lra.
Qed.
Lemma rep_first f x : E f x -> repeated E 1 (fun l => match l with a :: _ => f a | [] => 0 end) x.
Proof. intros H. exists f. split; [reflexivity|exact H]. Qed.
End Repeat.

Lemma mean_unique n g x y : mean n g x -> mean n g y -> x = y.
Proof.
  intros Hx Hy. apply Rminus_diag_uniq. destruct (Req_dec (x - y) 0) as [|Hne]; [assumption|exfalso]. pose proof (Rabs_pos_lt _ Hne) as Hp.
  destruct (Hx (Rabs (x - y) / 2) ltac:(lra)) as (m1 & H1). destruct (Hy (Rabs (x - y) / 2) ltac:(lra)) as (m2 & H2). pose proof (Rmax_l m1 m2). pose proof (Rmax_r m1 m2).
  destruct (H1 (- Rmax m1 m2 - 1) (Rmax m1 m2 + 1) ltac:(lra) ltac:(lra)) as (u & Iu & Du). destruct (H2 (- Rmax m1 m2 - 1) (Rmax m1 m2 + 1) ltac:(lra) ltac:(lra)) as (w & Iw & Dw).
  pose proof (is_RInt_unique (V := R_CompleteNormedModule) _ _ _ _ Iu) as Eu. pose proof (is_RInt_unique (V := R_CompleteNormedModule) _ _ _ _ Iw) as Ew. rewrite Eu in Ew. change (@eq R u w) in Ew. rewrite <- Ew in Dw. revert Du Dw Hp. unfold Rabs. repeat destruct (Rcase_abs _); lra.
Qed.
Section Law.
Variables N n : R -> R.
Hypothesis HN : normal_law N n.
Lemma mean_const c : mean n (fun _ => c) c.
Proof.
  pose proof (log_mean N n HN 0 0 (- c)) as H. apply (ex_val _ _ (0 - - c)); [lra|]. eapply mean_ext; [|exact H]. intros z. cbn beta. unfold lognormal. lra.
Qed.
Lemma mean_expects : expects (mean n).
Proof. constructor; [apply mean_ext|apply mean_lin|apply mean_const|apply mean_unique]. Qed.
Lemma draws_expects dim : expects (draws n dim).
Proof. apply rep_expects, mean_expects. Qed.

(** the second moments of the payouts *)
Lemma twice_shift v z : exp (2 * (v * z) - v * v) * n z = exp (v * v) * n (z - 2 * v).
Proof.
  rewrite <- (unit_shift N n HN (2 * v) z). transitivity (exp (v * v) * exp (2 * v * z - 2 * v * (2 * v) / 2) * n z); [|ring]. rewrite <- exp_plus. do 2 f_equal. field.
Qed.
Definition sq_prim (f v k z : R) : R := f * f * exp (v * v) * N (z - 2 * v) + 1 * ((- (2 * k * f)) * N (z - v) + k * k * N z).
Lemma log_square f v z : lognormal f v z * lognormal f v z = f * f * exp (2 * (v * z) - v * v).
Proof. unfold lognormal. replace (2 * (v * z) - v * v) with ((v * z - v * v / 2) + (v * z - v * v / 2)) by field. rewrite exp_plus. ring. Qed.
Lemma shift_rate v z : derivable_pt_lim (fun z => N (z - v)) z (n (z - v)).
Proof.
  eapply rate_value; [apply (derivable_pt_lim_comp (fun z => z - v) N); [apply derivable_pt_lim_minus; [apply derivable_pt_lim_id|apply derivable_pt_lim_const]|apply (nl_rate _ _ HN)]|]. ring.
Qed.
Lemma sq_rate f v k z : derivable_pt_lim (sq_prim f v k) z ((lognormal f v z - k) * (lognormal f v z - k) * n z).
Proof.
  unfold sq_prim. eapply rate_value.
  - apply derivable_pt_lim_plus; apply derivable_pt_lim_mult; try apply derivable_pt_lim_const; [apply (shift_rate (2 * v))|].
    apply derivable_pt_lim_plus; apply derivable_pt_lim_mult; try apply derivable_pt_lim_const; [apply (shift_rate v)|apply (nl_rate _ _ HN)].
  - cbv beta. transitivity (lognormal f v z * lognormal f v z * n z - 2 * k * lognormal f v z * n z + k * k * n z); [|ring]. rewrite log_square.
    replace (f * f * exp (2 * (v * z) - v * v) * n z) with (f * f * (exp (2 * (v * z) - v * v) * n z)) by ring. rewrite twice_shift. unfold lognormal.
    replace (2 * k * (f * exp (v * z - v * v / 2)) * n z) with (2 * k * f * (exp (v * z - v * v / 2) * n z)) by ring. rewrite (unit_shift N n HN). ring.
Qed.
Lemma sq_cont f v k z : continuous (fun z => (lognormal f v z - k) * (lognormal f v z - k) * n z) z.
Proof.
  apply (continuous_mult (fun z => (lognormal f v z - k) * (lognormal f v z - k)) n); [|apply (n_cont N n HN)]. apply (ex_derive_continuous (fun z => (lognormal f v z - k) * (lognormal f v z - k))). unfold lognormal. auto_derive. exact Logic.I.
Qed.
Definition sq_all f v k := f * f * exp (v * v) * 1 + 1 * ((- (2 * k * f)) * 1 + k * k * 1).
Lemma sq_right f v k : at_right (sq_prim f v k) (sq_all f v k).
Proof.
  apply (right_lin (fun z => N (z - 2 * v)) (fun z => (- (2 * k * f)) * N (z - v) + k * k * N z)); [apply (right_shift N)|apply (right_lin (fun z => N (z - v)) N); [apply (right_shift N)|]]; apply (N_right N n HN).
Qed.
Lemma sq_mean f v k : exists y, mean n (fun z => (lognormal f v z - k) * (lognormal f v z - k)) y.
Proof.
  eexists. apply (mean_all n (fun z => (lognormal f v z - k) * (lognormal f v z - k)) (sq_prim f v k)); [apply sq_rate|apply sq_cont| |apply sq_right]. unfold sq_prim.
  apply (left_lin (fun z => N (z - 2 * v)) (fun z => (- (2 * k * f)) * N (z - v) + k * k * N z)); [apply (left_shift N)|apply (left_lin (fun z => N (z - v)) N); [apply (left_shift N)|]]; apply (N_left N n HN).
Qed.
Lemma sq_call f v k : 0 < f -> 0 < k -> 0 < v -> exists y, mean n (fun z => Rmax 0 (lognormal f v z - k) * Rmax 0 (lognormal f v z - k)) y.
Proof.
  intros Hf Hk Hv. set (z0 := - d_minus f v k).
  assert (E0 : lognormal f v z0 = k).
  { unfold lognormal, z0, d_minus. replace (v * - (ln (f / k) / v - 1 / 2 * v) - v * v / 2) with (- ln (f / k)) by (field; lra). rewrite exp_Ropp, exp_ln by (apply Rdiv_lt_0_compat; lra). field. lra. }
  assert (Mono : forall y z, y < z -> lognormal f v y < lognormal f v z) by (intros y z H; unfold lognormal; apply Rmult_lt_compat_l; [exact Hf|]; apply exp_increasing; nra).
  eexists. apply (mean_right n (fun z => (lognormal f v z - k) * (lognormal f v z - k)) (sq_prim f v k) ltac:(apply sq_rate) ltac:(apply sq_cont) _ z0 _ (sq_right f v k)).
  - intros z Hz. pose proof (Mono z z0 Hz). rewrite Rmax_left by lra. ring.
  - intros z Hz. pose proof (Mono z0 z Hz). rewrite Rmax_right by lra. reflexivity.
Qed.
Lemma spread g x y : mean n g x -> mean n (fun z => g z * g z) y -> exists v, mean n (fun z => (g z - x) * (g z - x)) v.
Proof.
  intros Hg Hs. exists (1 * (1 * y + (- (2 * x)) * x) + 1 * (x * x)). eapply mean_ext; [|apply mean_lin; [apply mean_lin; [exact Hs|exact Hg]|apply mean_const]]. intros z. cbn beta. ring.
Qed.
(** every payout has a finite variance *)
Lemma pay_square f v k t : 0 < f -> 0 < k -> 0 < v -> t <> NotSet -> exists g y, (forall z, payout t (lognormal f v z) k = Ok (g z)) /\ mean n (fun z => g z * g z) y.
Proof.
  intros Hf Hk Hv Ht. destruct (sq_call f v k Hf Hk Hv) as (c & Hc). destruct (sq_mean f v k) as (a & Ha).
  destruct t; [| | |contradiction]; cbn [payout]; eexists; eexists; (split; [reflexivity|]).
  - exact Hc.
  - eapply mean_ext; [|exact (mean_lin n _ _ _ _ 1 (-1) Ha Hc)]. intros z. cbn beta. unfold Rmax. repeat destruct (Rle_dec _ _); try lra; nra.
  - eapply mean_ext; [|exact Ha]. intros z. cbn beta. unfold Rabs. destruct (Rcase_abs _); ring.
Qed.

(** products of lognormal numbers of mean one *)
Lemma sum_front k f : BsSpec.sum (S k) f = f O + BsSpec.sum k (fun j => f (S j)).
Proof. induction k as [|k IH]; [cbn; lra|]. change (BsSpec.sum (S (S k)) f) with (BsSpec.sum (S k) f + f (S k)). rewrite IH. cbn [BsSpec.sum]. lra. Qed.
Lemma product_mean dim : forall w, draws n dim (fun zs => exp (BsSpec.sum dim (fun j => w j * nth j zs 0 - w j * w j / 2))) 1.
Proof.
  induction dim as [|dim IH]; intros w; unfold draws; cbn [repeated]; [cbn; apply exp_0|]. exists (fun z => exp (w O * z - w O * w O / 2)). split.
  - intros z. apply (ex_val _ _ (exp (w O * z - w O * w O / 2) * 1 + 0 * 1)); [ring|].
    eapply rep_ext; [|apply (rep_lin _ mean_expects dim _ (fun _ => 1) _ _ (exp (w O * z - w O * w O / 2)) 0 (IH (fun j => w (S j)))); apply (rep_const _ mean_expects)].
    intros l _. cbn beta. rewrite sum_front, exp_plus. cbn [nth]. ring.
  - pose proof (log_mean N n HN 1 (w O) 0) as H. apply (ex_val _ _ (1 - 0)); [ring|]. eapply mean_ext; [|exact H]. intros z. cbn beta. unfold lognormal. ring.
Qed.
End Law.

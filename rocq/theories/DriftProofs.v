(** Proofs for C91. *)
From Coq Require Import Reals List Arith Sorted Lra Lia.
From Coquelicot Require Import Coquelicot.
From Verif Require Import Base Vec BlackModel BlackSpec BlackProofs ExpectSpec ExpectProofs MomentSpec MomentProofs InterpModel InterpProofs BsSpec DupireModel DupireSpec DupireProofs DriftSpec.
Import ListNotations.
Local Open Scope R_scope.

(** expectations keep the order *)
Section Order.
Variables N n : R -> R.
Hypothesis HN : normal_law N n.
Lemma mean_le f g x y : (forall z, f z <= g z) -> mean n f x -> mean n g y -> x <= y.
Proof.
  intros H Hx Hy. destruct (Rle_lt_dec x y) as [|Hl]; [assumption|exfalso].
  destruct (Hx ((x - y) / 2) ltac:(lra)) as (m1 & H1). destruct (Hy ((x - y) / 2) ltac:(lra)) as (m2 & H2). pose proof (Rmax_l m1 m2). pose proof (Rmax_r m1 m2). pose proof (Rmax_l (Rmax m1 m2) 0). pose proof (Rmax_r (Rmax m1 m2) 0).
  set (M := Rmax (Rmax m1 m2) 0) in *.
  destruct (H1 (- M - 1) (M + 1) ltac:(lra) ltac:(lra)) as (u & Iu & Du). destruct (H2 (- M - 1) (M + 1) ltac:(lra) ltac:(lra)) as (w & Iw & Dw).
  assert (u <= w). { apply (is_RInt_le (fun z => f z * n z) (fun z => g z * n z) (- M - 1) (M + 1)); [lra|exact Iu|exact Iw|]. intros z _. apply Rmult_le_compat_r; [left; exact (n_pos N n HN z)|apply H]. }
  revert Du Dw. unfold Rabs. repeat destruct (Rcase_abs _); lra.
Qed.
Lemma rep_le {A} (E : (A -> R) -> R -> Prop) (HE : forall f g x y, (forall a, f a <= g a) -> E f x -> E g y -> x <= y) k :
  forall f g x y, (forall l, length l = k -> f l <= g l) -> repeated E k f x -> repeated E k g y -> x <= y.
Proof.
  clear HN. induction k as [|k IH]; intros f g x y H Rf Rg; cbn [repeated] in *; [rewrite <- Rf, <- Rg; now apply H|].
  destruct Rf as (h & Hh & Hm). destruct Rg as (h' & Hh' & Hm'). apply (HE h h'); [|exact Hm|exact Hm']. intros a. apply (IH (fun l => f (a :: l)) (fun l => g (a :: l))); [|apply Hh|apply Hh'].
  intros l Hl. apply H. cbn. now rewrite Hl.
Qed.
Lemma draws_le dim f g x y : (forall zs, length zs = dim -> f zs <= g zs) -> draws n dim f x -> draws n dim g y -> x <= y.
Proof. apply rep_le. exact mean_le. Qed.
End Order.

Section Run.
Variables N n : R -> R.
Hypothesis HN : normal_law N n.
Variable m : dupire.
(** the logarithm of the spot after [k] steps from [l] *)
Fixpoint run (l : R) (T gauss : list R) (k : nat) : R :=
  match k with
  | O => l
  | S j => let dt := nth (S j) T 0 - nth j T 0 in
           let v := sqrt dt * lv m (nth j T 0) (run l T gauss j) in
           run l T gauss j + (dt * (u_r m - u_q m) + v * (- (1/2) * v + nth j gauss 0))
  end.
Lemma run_logs T gauss k : run (ln (u_spot m)) T gauss k = logs m T gauss k.
Proof. clear. induction k as [|k IH]; [reflexivity|]. cbn [run logs]. now rewrite IH. Qed.
Definition first_step (l t0 t1 z : R) : R := let v := sqrt (t1 - t0) * lv m t0 l in l + ((t1 - t0) * (u_r m - u_q m) + v * (- (1/2) * v + z)).
Lemma run_shift l t0 T z gauss k : run l (t0 :: T) (z :: gauss) (S k) = run (first_step l t0 (nth 0 T 0) z) T gauss k.
Proof. clear. induction k as [|k IH]; [reflexivity|]. change (run l (t0 :: T) (z :: gauss) (S (S k))) with (let r := run l (t0 :: T) (z :: gauss) (S k) in let dt := nth (S k) T 0 - nth k T 0 in let v := sqrt dt * lv m (nth k T 0) r in r + (dt * (u_r m - u_q m) + v * (- (1/2) * v + nth k gauss 0))). rewrite IH. reflexivity. Qed.
Lemma run_known l T known rest k : (k <= length known)%nat -> run l T (known ++ rest) k = run l T known k.
Proof. clear. induction k as [|k IH]; intros Hk; [reflexivity|]. cbn [run]. rewrite IH by lia. now rewrite app_nth1 by lia. Qed.
Lemma run_app : forall known l T rest k, (length known < length T)%nat -> run l T (known ++ rest) (length known + k) = run (run l T known (length known)) (skipn (length known) T) rest k.
Proof.
  clear. induction known as [|z known IH]; intros l T rest k Hk; [reflexivity|]. destruct T as [|t0 T]; [cbn in Hk; lia|]. cbn [length Nat.add app skipn]. rewrite !run_shift. apply IH. cbn in Hk. lia.
Qed.
Lemma run_mean : forall dim T l k, length T = S dim -> (k <= dim)%nat -> draws n dim (fun zs => exp (run l T zs k)) (exp (l + (u_r m - u_q m) * (nth k T 0 - nth 0 T 0))).
Proof.
  induction dim as [|dim IH]; intros T l k HT Hk.
  - assert (k = O) as -> by lia. cbn [draws repeated run]. unfold draws. cbn [repeated]. f_equal. ring.
  - destruct k as [|k].
    + apply (ex_val _ _ (exp l)); [f_equal; ring|]. exact (rep_const _ (mean_expects N n HN) (S dim) (exp l)).
    + destruct T as [|t0 T]; [discriminate|]. unfold draws. cbn [repeated].
      exists (fun z => exp (first_step l t0 (nth 0 T 0) z + (u_r m - u_q m) * (nth k T 0 - nth 0 T 0))). split.
      * intros z. eapply (rep_ext (mean n)); [|apply (IH T (first_step l t0 (nth 0 T 0) z) k); [cbn in HT; lia|lia]]. intros zs _. cbn beta. now rewrite run_shift.
      * set (v := sqrt (nth 0 T 0 - t0) * lv m t0 l). set (f := exp (l + (u_r m - u_q m) * (nth (S k) (t0 :: T) 0 - nth 0 (t0 :: T) 0))).
        apply (ex_val _ _ (f - 0)); [ring|]. eapply mean_ext; [|exact (log_mean N n HN f v 0)]. intros z. cbn beta. unfold lognormal, f, first_step. fold v. cbn [nth]. rewrite Rminus_0_r, <- exp_plus. f_equal. field.
Qed.
Lemma run_later known T l k : (length known <= k < length T)%nat ->
  draws n (length T - 1 - length known) (fun rest => exp (run l T (known ++ rest) k)) (exp (run l T known (length known)) * exp ((u_r m - u_q m) * (nth k T 0 - nth (length known) T 0))).
Proof.
  intros Hk. set (j := length known) in *. rewrite <- exp_plus.
  pose proof (run_mean (length T - 1 - j) (skipn j T) (run l T known j) (k - j) ltac:(rewrite skipn_length; lia) ltac:(lia)) as H.
  assert (Ns : forall i, nth i (skipn j T) 0 = nth (j + i) T 0) by (intros i; rewrite <- (firstn_skipn j T) at 2; rewrite app_nth2; rewrite firstn_length_le by lia; [f_equal; lia|lia]).
  rewrite !Ns in H. replace (j + (k - j))%nat with k in H by lia. rewrite Nat.add_0_r in H. eapply (rep_ext (mean n)); [|exact H]. intros zs _. cbn beta.
  replace k with (length known + (k - j))%nat at 2 by (unfold j; lia). rewrite run_app by (unfold j in *; lia). reflexivity.
Qed.
End Run.

Lemma sorted_index T : StronglySorted Rlt T -> forall j k x, nth_error T j = Some x -> nth_error T k = Some x -> j = k.
Proof.
  intros HS. assert (Hn : NoDup T) by (induction HS as [|a l _ IH Hf]; constructor; [intros Hi; rewrite Forall_forall in Hf; specialize (Hf a Hi); lra|exact IH]).
  intros j k x Hj Hk. apply (proj1 (NoDup_nth_error T) Hn); [apply nth_error_Some; congruence|congruence].
Qed.
Lemma diffuses_logs m T gauss L : surface_ok m -> StronglySorted Rlt T -> diffuses m T gauss L -> forall k, (k < length T)%nat -> L k = logs m T gauss k.
Proof.
  intros Hm HS (H0 & H1). destruct (logs_diffuses m Hm T gauss HS) as (G0 & G1). induction k as [|k IH]; intros Hk; [now rewrite H0, G0|].
  destruct (H1 k Hk) as (v & Ev & E). destruct (G1 k Hk) as (w & Ew & G). rewrite IH in Ev by lia. rewrite Ew in Ev. injection Ev as <-. cbv zeta in E, G. rewrite E, G, IH by lia. reflexivity.
Qed.
(** with all volatilities alike the surface has that volatility everywhere *)
Lemma flat_value x y v x0 : x <> [] -> length x = length y -> (forall a, In a y -> a = v) -> interp_value x y x0 = v.
Proof.
  intros Hx Hl Hy. assert (v <= interp_value x y x0 <= v); [|lra]. apply value_bounds; [exact Hl|exact Hx|]. intros k Hk. assert (nth0 y k = v) by (apply Hy; apply nth_In; exact Hk). lra.
Qed.
Lemma flat_lv m v t l : surface_ok m -> flat m v -> lv m t l = v.
Proof.
  intros Hm Hf. pose proof Hm as (H1 & H2 & H3 & H4). unfold lv. destruct (logs_shape m Hm t) as [Hl Hn]. apply flat_value; [exact Hn|exact Hl|]. intros a Ha. unfold column in Ha. apply in_map_iff in Ha. destruct Ha as (r & <- & Hr).
  apply flat_value; [exact H2|symmetry; now apply H4|]. now apply Hf.
Qed.
Lemma flat_logs m v T gauss : surface_ok m -> flat m v -> StronglySorted Rlt T -> forall k, (k < length T)%nat ->
  logs m T gauss k = ln (u_spot m) + (u_r m - u_q m - 1/2 * v * v) * (nth k T 0 - nth 0 T 0) + v * BsSpec.sum k (fun j => sqrt (nth (S j) T 0 - nth j T 0) * nth j gauss 0).
Proof.
  intros Hm Hf HS. induction k as [|k IH]; intros Hk; cbn [logs BsSpec.sum]; [ring|]. rewrite (flat_lv m v _ _ Hm Hf), IH by lia. pose proof (SS_nth T HS k Hk) as Hdt.
  set (dt := nth (S k) T 0 - nth k T 0) in *. assert (Hq : sqrt dt * sqrt dt = dt) by (apply sqrt_def; unfold dt; lra). set (s := sqrt dt) in *. clearbody s. set (g := BsSpec.sum _ _).
  replace (s * v * (- (1 / 2) * (s * v) + nth k gauss 0)) with (- (1/2) * v * v * (s * s) + v * (s * nth k gauss 0)) by ring. rewrite Hq. replace (nth (S k) T 0) with (nth k T 0 + dt) by (unfold dt; ring). ring.
Qed.
Lemma brownian_sum T gauss k : (k < length T)%nat -> brownian T gauss k = BsSpec.sum k (fun j => sqrt (nth (S j) T 0 - nth j T 0) * nth j gauss 0).
Proof.
  intros Hk. unfold brownian. assert (G : forall d, BsSpec.sum (k + d) (fun j => weight T k j * nth j gauss 0) = BsSpec.sum k (fun j => weight T k j * nth j gauss 0)).
  { induction d as [|d IH]; [now rewrite Nat.add_0_r|]. rewrite Nat.add_succ_r. cbn [BsSpec.sum]. rewrite IH. unfold weight at 2. destruct (lt_dec (k + d) k); [lia|]. ring. }
  replace (length T - 1)%nat with (k + (length T - 1 - k))%nat by lia. rewrite G. clear G Hk.
  assert (G : forall i, (i <= k)%nat -> BsSpec.sum i (fun j => weight T k j * nth j gauss 0) = BsSpec.sum i (fun j => sqrt (nth (S j) T 0 - nth j T 0) * nth j gauss 0)); [|now apply G].
  induction i as [|i IH]; intros Hi; cbn [BsSpec.sum]; [reflexivity|]. rewrite IH by lia. unfold weight. destruct (lt_dec i k); [reflexivity|lia].
Qed.
Lemma allocated_length defs path : allocated defs path -> length defs = length path.
Proof. intros H. unfold allocated in H. induction H as [|d s defs path _ _ IH]; [reflexivity|]. cbn [length]. now rewrite IH. Qed.

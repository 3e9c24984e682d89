(** Conjugate gradients: the residual is kept, and the iteration ends. *)
From Coq Require Import Reals List Arith Lia Lra Bool ZArith.
From Verif Require Import Base LinNum BandSpec BandProofs LinProofs CholSpec CholAlgebra CgModel CgSpec CgAlgebra.
Import ListNotations.
Local Open Scope R_scope.

Section Proofs.
Variable d : R -> R -> R.
Notation L := (RealDiv d).
Definition at_ (v : list R) (i : nat) : R := nth i v 0.
Lemma zip_length (f : R -> R -> R) : forall a b : list R, length (@zip L f a b) = Nat.min (length a) (length b).
Proof. induction a as [|x a IH]; intros [|y b]; cbn [zip length Nat.min]; try reflexivity. f_equal. apply IH. Qed.
Lemma zip_nth (f : R -> R -> R) : forall (a b : list R) i, (i < length a)%nat -> (i < length b)%nat -> nth i (@zip L f a b) 0 = f (nth i a 0) (nth i b 0).
Proof. induction a as [|x a IH]; intros [|y b] i Ha Hb; cbn [length] in *; try lia. destruct i as [|i]; cbn [zip nth]; [reflexivity|apply IH; lia]. Qed.
Lemma zero_L : @zero L = 0.
Proof. reflexivity. Qed.
Lemma inner_same : forall (u v : list R) (init : R), @inner L init u v = @inner RealLin init u v.
Proof. induction u as [|x u IH]; intros [|y v] init; cbn [inner]; try reflexivity. apply IH. Qed.
Lemma inner_dot n (u v : list R) : length u = n -> length v = n -> @inner L (@zero L) u v = dot n (at_ u) (at_ v).
Proof.
  intros Hu Hv. transitivity (@inner RealLin (@zero RealLin) u v); [apply inner_same|]. rewrite (inner_sum u v n) by lia. rewrite zero_R. unfold dot, at_. lra.
Qed.
Lemma le_R x y : @le L x y = true <-> x <= y.
Proof. unfold le. cbn [nltb neqb RealDiv]. destruct (Rlt_dec x y); destruct (Req_EM_T x y); cbn [orb]; split; intros; try reflexivity; try lra; discriminate. Qed.
Lemma row_times_lin n a (x y z : list R) c i : (forall j, (j < n)%nat -> nth j z 0 = nth j x 0 + c * nth j y 0) -> row_times n a z i = row_times n a x i + c * row_times n a y i.
Proof. intros H. unfold row_times. rewrite <- sum_scal, <- sum_plus. apply sum_ext. intros j Hj. rewrite H by exact Hj. ring. Qed.

Section Cg.
Variables (n : nat) (a m : nat -> nat -> R) (times pre : list R -> list R) (b : list R).
Hypothesis times_ok : multiplies n a times.
Hypothesis pre_len : forall x, length x = n -> length (pre x) = n.
Hypothesis b_len : length b = n.
Notation state := (@cg_state L).
Notation step := (@cg_step L times pre).
Definition cg_ok (s : state) : Prop :=
  @length R (cg_x s) = n /\ @length R (cg_r s) = n /\ @length R (cg_p s) = n /\ forall i, (i < n)%nat -> @nth R i (cg_r s) 0 = nth i b 0 - row_times n a (cg_x s) i.
(** what one turn computes *)
Definition next_beta (s : state) : R := dot n (at_ (pre (cg_r s))) (at_ (cg_r s)).
Definition next_ratio (first : bool) (s : state) : R := if first then 0 else d (next_beta s) (cg_beta s).
Lemma step_eq first s : cg_ok s ->
  let s' := step first s in
  cg_beta s' = next_beta s /\ @length R (cg_p s') = n /\
  (forall i, (i < n)%nat -> @nth R i (cg_p s') 0 = nth i (pre (cg_r s)) 0 + next_ratio first s * @nth R i (cg_p s) 0) /\
  let alpha := d (next_beta s) (dot n (at_ (times (cg_p s'))) (at_ (cg_p s'))) in
  @length R (cg_x s') = n /\ @length R (cg_r s') = n /\
  (forall i, (i < n)%nat -> @nth R i (cg_x s') 0 = @nth R i (cg_x s) 0 + alpha * @nth R i (cg_p s') 0) /\
  (forall i, (i < n)%nat -> @nth R i (cg_r s') 0 = @nth R i (cg_r s) 0 + - alpha * nth i (times (cg_p s')) 0).
Proof.
  intros (Lx & Lr & Lp & _). unfold cg_step. cbv zeta. cbn [cg_x cg_r cg_p cg_beta].
  set (ratio := if first then @zero L else _).
  assert (Er : ratio = next_ratio first s).
  { unfold ratio, next_ratio. destruct first; [reflexivity|]. cbn [ndiv RealDiv]. f_equal. apply inner_dot; [apply pre_len; exact Lr|exact Lr]. }
  set (p := @zip L _ _ (pre (cg_r s))).
  assert (Lp' : @length R p = n).
  { unfold p. etransitivity; [apply zip_length|]. rewrite map_length. pose proof (pre_len (cg_r s) Lr). cbn [num RealDiv] in *. lia. }
  assert (Vp : forall i, (i < n)%nat -> @nth R i p 0 = nth i (pre (cg_r s)) 0 + next_ratio first s * @nth R i (cg_p s) 0).
  { intros i Hi. unfold p. etransitivity; [apply zip_nth; [rewrite map_length; cbn [num RealDiv] in *; lia|rewrite (pre_len (cg_r s) Lr); exact Hi]|].
    assert (Em : @nth R i (map (fun v : R => v * ratio) (cg_p s)) 0 = @nth R i (cg_p s) 0 * ratio).
    { etransitivity; [|exact (map_nth (fun v : R => v * ratio) (cg_p s) 0 i)]. apply nth_indep. rewrite map_length. cbn [num RealDiv] in *. lia. }
    rewrite <- Er. cbn [nadd nmul RealDiv] in *. etransitivity; [apply (f_equal2 Rplus); [exact Em|reflexivity]|]. ring. }
  clearbody p. destruct (times_ok p Lp') as [Lw _].
  assert (Ea : @ndiv L (@inner L (@zero L) (pre (cg_r s)) (cg_r s)) (@inner L (@zero L) (times p) p) = d (next_beta s) (dot n (at_ (times p)) (at_ p))).
  { cbn [ndiv RealDiv]. apply (f_equal2 d); apply inner_dot; try assumption. apply pre_len; exact Lr. }
  split; [apply inner_dot; [apply pre_len; exact Lr|exact Lr]|]. split; [exact Lp'|]. split; [exact Vp|]. cbv zeta.
  split; [etransitivity; [apply zip_length|]; cbn [num RealDiv] in *; lia|]. split; [etransitivity; [apply zip_length|]; cbn [num RealDiv] in *; lia|].
  split; intros i Hi; (etransitivity; [apply zip_nth; cbn [num RealDiv] in *; lia|]); unfold increment; rewrite Ea; reflexivity.
Qed.
Lemma step_ok first s : cg_ok s -> cg_ok (step first s).
Proof.
  intros H. destruct (step_eq first s H) as (_ & Lp & _ & Lx & Lr & Vx & Vr). destruct H as (_ & _ & _ & V).
  split; [exact Lx|]. split; [exact Lr|]. split; [exact Lp|]. intros i Hi. rewrite Vr by exact Hi. rewrite V by exact Hi.
  rewrite (row_times_lin n a (cg_x s) (cg_p (step first s)) (cg_x (step first s)) _ i Vx). destruct (times_ok _ Lp) as [_ W]. rewrite W by exact Hi. ring.
Qed.
Lemma start_ok (x : list R) : length x = n -> cg_ok (@cg_start L n times b x).
Proof.
  intros Hx. destruct (times_ok x Hx) as [Lw W]. unfold cg_start. split; [exact Hx|]. cbn [cg_x cg_r cg_p]. split; [etransitivity; [apply zip_length|]; cbn [num RealDiv] in *; lia|].
  split; [apply repeat_length|]. intros i Hi. etransitivity; [apply zip_nth; cbn [num RealDiv] in *; lia|]. rewrite W by exact Hi. reflexivity.
Qed.
Lemma norm_residual s : cg_ok s -> @norm L (cg_r s) = residual n a b (cg_x s).
Proof.
  intros (_ & Lr & _ & V). unfold norm, residual. cbn [nsqrt RealDiv]. f_equal. rewrite (inner_dot n) by exact Lr. unfold dot, at_. apply sum_ext. intros i Hi. rewrite V by exact Hi. ring.
Qed.

Fixpoint traj (s : state) (k : nat) : state := match k with O => s | S j => step (j =? 0)%nat (traj s j) end.
Lemma traj_ok s k : cg_ok s -> cg_ok (traj s k).
Proof. intros H. induction k as [|k IH]; [exact H|]. apply step_ok. exact IH. Qed.
Lemma loop_traj lim s k : forall j, (exists i, (j < i <= j + k)%nat /\ @norm L (cg_r (traj s i)) <= lim /\ @cg_loop L times pre lim (j =? 0)%nat k (traj s j) = Ok (cg_x (traj s i))) \/
  (@cg_loop L times pre lim (j =? 0)%nat k (traj s j) = Throw /\ forall i, (j < i <= j + k)%nat -> lim < @norm L (cg_r (traj s i))).
Proof.
  induction k as [|k IH]; intros j; cbn [cg_loop].
  - right. split; [reflexivity|]. intros. lia.
  - change (step (j =? 0)%nat (traj s j)) with (traj s (S j)). destruct (@le L (norm (cg_r (traj s (S j)))) lim) eqn:E.
    + left. exists (S j). split; [lia|]. split; [apply le_R; exact E|reflexivity].
    + assert (N : lim < @norm L (cg_r (traj s (S j)))).
      { apply Rnot_le_lt. intros H. apply le_R in H. cbn [num RealDiv] in *. congruence. }
      destruct (IH (S j)) as [(i & Hi & H1 & H2)|[H1 H2]].
      * left. exists i. split; [lia|]. split; [exact H1|exact H2].
      * right. split; [exact H1|]. intros i Hi. destruct (Nat.eq_dec i (S j)) as [->|Ne]; [exact N|apply H2; lia].
Qed.
Lemma loop_residual lim (x y : list R) k : length x = n -> @cg_loop L times pre lim true k (@cg_start L n times b x) = Ok y -> length y = n /\ residual n a b y <= lim.
Proof.
  intros Hx H. pose proof (start_ok x Hx) as S0. destruct (loop_traj lim (@cg_start L n times b x) k 0) as [(i & _ & H1 & H2)|[H1 _]]; cbn [Nat.eqb traj] in *; [|congruence].
  rewrite H2 in H. injection H as <-. pose proof (traj_ok _ i S0) as Si. split; [apply Si|]. rewrite <- norm_residual by exact Si. exact H1.
Qed.

(** symmetric positive definite matrix and preconditioner *)
Hypothesis a_sym : symmetric n a.
Hypothesis a_pos : positive_definite n a.
Hypothesis m_sym : symmetric n m.
Hypothesis m_pos : positive_definite n m.
Hypothesis pre_ok : multiplies n m pre.
Hypothesis div_ok : forall x y, y <> 0 -> d x y = x / y.
Lemma sym_dot (c : nat -> nat -> R) (f : list R -> list R) (u v : list R) : symmetric n c -> multiplies n c f -> length u = n -> length v = n -> dot n (at_ (f u)) (at_ v) = dot n (at_ (f v)) (at_ u).
Proof.
  intros S0 Hf Hu Hv. destruct (Hf u Hu) as [_ Fu]. destruct (Hf v Hv) as [_ Fv]. unfold dot, at_.
  rewrite (sum_ext n _ (fun i => sum n (fun j => c i j * nth j u 0 * nth i v 0))) by (intros i Hi; rewrite Fu by exact Hi; unfold row_times; rewrite sum_scal_r; reflexivity).
  rewrite sum_swap. apply sum_ext. intros j Hj. rewrite Fv by exact Hj. unfold row_times. rewrite <- sum_scal_r. apply sum_ext. intros i Hi. rewrite (S0 i j) by assumption. ring.
Qed.
Lemma pos_dot (c : nat -> nat -> R) (f : list R -> list R) (u : list R) : positive_definite n c -> multiplies n c f -> length u = n -> nonzero n u -> 0 < dot n (at_ (f u)) (at_ u).
Proof.
  intros P Hf Hu Nz. specialize (P u Hu Nz). destruct (Hf u Hu) as [_ Fu]. replace (dot n (at_ (f u)) (at_ u)) with (sum n (fun i => nth i u 0 * row_times n c u i)); [exact P|].
  unfold dot, at_. apply sum_ext. intros i Hi. rewrite Fu by exact Hi. ring.
Qed.
Lemma big_nonzero (s : state) lim : cg_ok s -> 0 <= lim -> lim < @norm L (cg_r s) -> nonzero n (cg_r s).
Proof.
  intros Hs Hl H. unfold norm in H. cbn [nsqrt RealDiv] in H. rewrite (inner_dot n) in H by apply Hs.
  apply (nonzero_dot n (at_ (cg_r s)) (at_ (cg_r s))). intros E. rewrite E, sqrt_0 in H. lra.
Qed.
Lemma loop_ends lim (x : list R) k : length x = n -> nonzero n (cg_r (@cg_start L n times b x)) -> 0 <= lim -> (n <= k)%nat ->
  exists y, @cg_loop L times pre lim true k (@cg_start L n times b x) = Ok y.
Proof.
  intros Hx N0 Hl Hk. set (s0 := @cg_start L n times b x) in *. pose proof (start_ok x Hx : cg_ok s0) as S0.
  destruct (loop_traj lim s0 k 0) as [(i & _ & _ & H2)|[_ H2]]; cbn [Nat.eqb traj] in *; [eexists; exact H2|]. exfalso.
  assert (Ok_ : forall i, cg_ok (traj s0 i)) by (intros i; apply traj_ok; exact S0).
  assert (Nz : forall i, (i <= n)%nat -> nonzero n (cg_r (traj s0 i))).
  { intros [|i] Hi; [exact N0|]. apply (big_nonzero _ lim); [apply Ok_|exact Hl|apply H2; lia]. }
  set (r := fun k => at_ (cg_r (traj s0 k))). set (z := fun k => at_ (pre (cg_r (traj s0 k)))).
  set (p := fun k => at_ (cg_p (traj s0 (S k)))). set (w := fun k => at_ (times (cg_p (traj s0 (S k))))).
  set (beta := fun k => next_beta (traj s0 k)).
  assert (Bp : forall k, (k <= n)%nat -> 0 < beta k).
  { intros j Hj. apply (pos_dot m pre); [exact m_pos|exact pre_ok|apply Ok_|apply Nz; exact Hj]. }
  assert (St : forall j, cg_ok (traj s0 j)) by exact Ok_.
  assert (Bt : forall j, cg_beta (traj s0 (S j)) = beta j) by (intros j; apply (step_eq (j =? 0)%nat (traj s0 j) (St j))).
  apply (too_many n n r z p w (fun k => d (beta k) (dot n (w k) (p k))) beta).
  - intros i j _ _. apply (sym_dot m pre); [exact m_sym|exact pre_ok|apply St|apply St].
  - reflexivity.
  - exact Bp.
  - intros i Hi. destruct (step_eq true s0 S0) as (_ & _ & V & _). unfold p, z, at_. cbn [traj Nat.eqb]. rewrite V by exact Hi. unfold next_ratio. ring.
  - intros j i Hj Hi. destruct (step_eq (S j =? 0)%nat (traj s0 (S j)) (St (S j))) as (_ & _ & V & _). unfold p at 1, z, at_.
    change (traj s0 (S (S j))) with (step (S j =? 0)%nat (traj s0 (S j))). rewrite V by exact Hi. cbn [Nat.eqb]. unfold next_ratio. rewrite Bt. rewrite div_ok; [reflexivity|]. pose proof (Bp j ltac:(lia)). lra.
  - intros i j _ _. apply (sym_dot a times); [exact a_sym|exact times_ok|apply St|apply St].
  - intros j _ (i & Hi & Ne). apply (pos_dot a times); [exact a_pos|exact times_ok|apply St|exists i; split; [exact Hi|exact Ne]].
  - intros j _ Ne. apply div_ok. exact Ne.
  - intros j i _ Hi. destruct (step_eq (j =? 0)%nat (traj s0 j) (St j)) as (_ & _ & _ & _ & _ & _ & V). unfold r, at_. apply V. exact Hi.
  - lia.
Qed.
End Cg.

(** the two-sided iteration *)
Section Bcg.
Variables (n : nat) (a : nat -> nat -> R) (times times_right pre pre_right : list R -> list R) (b : list R).
Hypothesis times_ok : multiplies n a times.
Hypothesis pre_len : forall x, length x = n -> length (pre x) = n.
Hypothesis b_len : length b = n.
Notation bstate := (@bcg_state L).
Notation bstep := (@bcg_step L times times_right pre pre_right).
Definition bcg_ok (s : bstate) : Prop :=
  @length R (bcg_x s) = n /\ @length R (bcg_r s) = n /\ @length R (bcg_p s) = n /\ forall i, (i < n)%nat -> @nth R i (bcg_r s) 0 = nth i b 0 - row_times n a (bcg_x s) i.
Lemma bstep_ok first s : bcg_ok s -> bcg_ok (bstep first s).
Proof.
  intros (Lx & Lr & Lp & V). unfold bcg_step. cbv zeta. unfold bcg_ok. cbn [bcg_x bcg_r bcg_p].
  set (p := @zip L _ _ (pre (bcg_r s))).
  assert (Lp' : @length R p = n).
  { unfold p. etransitivity; [apply zip_length|]. rewrite map_length. pose proof (pre_len (bcg_r s) Lr). cbn [num RealDiv] in *. lia. }
  clearbody p. destruct (times_ok p Lp') as [Lw W]. set (alpha := @ndiv L _ _). clearbody alpha.
  split; [etransitivity; [apply zip_length|]; cbn [num RealDiv] in *; lia|]. split; [etransitivity; [apply zip_length|]; cbn [num RealDiv] in *; lia|]. split; [exact Lp'|].
  intros i Hi. etransitivity; [apply zip_nth; cbn [num RealDiv] in *; lia|]. rewrite W by exact Hi.
  rewrite (row_times_lin n a (bcg_x s) p (@zip L (@increment L alpha) (bcg_x s) p) alpha i).
  - unfold increment. cbn [nadd nmul nopp RealDiv]. rewrite V by exact Hi. ring.
  - intros j Hj. etransitivity; [apply zip_nth; cbn [num RealDiv] in *; lia|]. reflexivity.
Qed.
Lemma bstart_ok (x : list R) : length x = n -> bcg_ok (@bcg_start L n times b x).
Proof.
  intros Hx. destruct (times_ok x Hx) as [Lw W]. unfold bcg_start. split; [exact Hx|]. cbn [bcg_x bcg_r bcg_p]. split; [etransitivity; [apply zip_length|]; cbn [num RealDiv] in *; lia|].
  split; [apply repeat_length|]. intros i Hi. etransitivity; [apply zip_nth; cbn [num RealDiv] in *; lia|]. rewrite W by exact Hi. reflexivity.
Qed.
Lemma bloop_residual lim (y : list R) k : forall first s, bcg_ok s -> @bcg_loop L times times_right pre pre_right lim first k s = Ok y -> length y = n /\ residual n a b y <= lim.
Proof.
  induction k as [|k IH]; intros first s Hs H; cbn [bcg_loop] in H; [discriminate|]. pose proof (bstep_ok first s Hs) as H1.
  set (s1 := bstep first s) in *. clearbody s1. destruct (@le L (norm (bcg_r s1)) lim) eqn:E; [|apply (IH false s1 H1 H)].
  injection H as <-. destruct H1 as (Lx & Lr & Lp & V). split; [exact Lx|]. apply le_R in E. unfold norm in E. cbn [nsqrt RealDiv] in E. rewrite (inner_dot n) in E by exact Lr.
  unfold residual. replace (sum n (fun i => (nth i b 0 - row_times n a (bcg_x s1) i) ^ 2)) with (dot n (at_ (bcg_r s1)) (at_ (bcg_r s1))); [exact E|].
  unfold dot, at_. apply sum_ext. intros i Hi. rewrite V by exact Hi. ring.
Qed.
End Bcg.
End Proofs.

(** with a symmetric matrix and preconditioner the two iterations are the same, in any arithmetic *)
Lemma bcg_same {K : Lin} times pre lim k : forall first (s : bcg_state), bcg_rr s = bcg_r s -> bcg_pp s = bcg_p s ->
  bcg_loop times times pre pre lim first k s = cg_loop times pre lim first k (CgState (bcg_x s) (bcg_r s) (bcg_p s) (bcg_beta s)).
Proof.
  induction k as [|k IH]; intros first s Hr Hp; cbn [bcg_loop cg_loop]; [reflexivity|]. unfold bcg_step, cg_step. cbn [bcg_x bcg_r bcg_p bcg_beta cg_x cg_r cg_p cg_beta].
  rewrite Hr, Hp. destruct (le _ lim); [reflexivity|]. rewrite IH by reflexivity. reflexivity.
Qed.

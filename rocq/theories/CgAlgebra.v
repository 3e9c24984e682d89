(** Conjugate directions: dependent vectors and the orthogonality of the residuals. *)
From Coq Require Import Reals List Arith Lia Lra.
From Verif Require Import BandSpec BandProofs CholAlgebra.
Local Open Scope R_scope.

(** n + 1 vectors of size n are dependent *)
Lemma dependent n : forall v : nat -> nat -> R, exists c, (exists i, (i <= n)%nat /\ c i <> 0) /\ forall j, (j < n)%nat -> sum (S n) (fun i => c i * v i j) = 0.
Proof.
  induction n as [|n IH]; intros v.
  - exists (fun _ => 1). split; [exists O; split; [lia|lra]|]. intros j Hj. lia.
  - assert (D : (exists i, (i <= S n)%nat /\ v i n <> 0) \/ forall i, (i <= S n)%nat -> v i n = 0).
    { generalize (S n) as m. induction m as [|m [H|H]].
      - destruct (Req_dec (v O n) 0) as [E|E]; [right; intros i Hi; replace i with O by lia; exact E|left; exists O; split; [lia|exact E]].
      - left. destruct H as (i & Hi & E). exists i. split; [lia|exact E].
      - destruct (Req_dec (v (S m) n) 0) as [E|E]; [|left; exists (S m); split; [lia|exact E]].
        right. intros i Hi. destruct (Nat.eq_dec i (S m)) as [->|Ne]; [exact E|apply H; lia]. }
    destruct D as [(p & Hp & Np)|Z].
    + (* bring vector p to the end *)
      set (sw := fun i => if (i =? p)%nat then S n else i).
      destruct (IH (fun i j => v (sw i) j - v (sw i) n / v p n * v p j)) as (c & (i0 & Hi0 & Nc) & Hc).
      set (s := sum (S n) (fun i => c i * (v (sw i) n / v p n))).
      destruct (Nat.eq_dec p (S n)) as [Ep|Ep].
      * exists (fun i => if (i =? S n)%nat then - s else c i). split.
        { exists i0. split; [lia|]. replace (i0 =? S n)%nat with false by (symmetry; apply Nat.eqb_neq; lia). exact Nc. }
        intros j Hj. change (sum (S (S n)) ?f) with (sum (S n) f + f (S n)). cbv beta. rewrite Nat.eqb_refl.
        rewrite (sum_ext (S n) _ (fun i => c i * (v (sw i) j - v (sw i) n / v p n * v p j) + v p j * (c i * (v (sw i) n / v p n)))).
        2:{ intros i Hi. replace (i =? S n)%nat with false by (symmetry; apply Nat.eqb_neq; lia).
            assert (E : sw i = i) by (unfold sw; destruct (i =? p)%nat eqn:E; [apply Nat.eqb_eq in E; lia|reflexivity]). rewrite E. field. exact Np. }
        rewrite sum_plus, sum_scal. fold s. replace (v (S n) j) with (v p j) by (rewrite Ep; reflexivity).
        destruct (Nat.eq_dec j n) as [->|Nj].
        -- rewrite (sum_ext (S n) _ (fun _ => 0)); [rewrite sum_zero; ring|]. intros i _. field. exact Np.
        -- rewrite Hc by lia. ring.
      * exists (fun i => if (i =? p)%nat then - s else if (i =? S n)%nat then c p else c i). split.
        { destruct (Nat.eq_dec i0 p) as [->|N0].
          - exists (S n). split; [lia|]. replace (S n =? p)%nat with false by (symmetry; apply Nat.eqb_neq; lia). rewrite Nat.eqb_refl. exact Nc.
          - exists i0. split; [lia|]. replace (i0 =? p)%nat with false by (symmetry; apply Nat.eqb_neq; lia). replace (i0 =? S n)%nat with false by (symmetry; apply Nat.eqb_neq; lia). exact Nc. }
        intros j Hj. change (sum (S (S n)) ?f) with (sum (S n) f + f (S n)). cbv beta. replace (S n =? p)%nat with false by (symmetry; apply Nat.eqb_neq; lia). rewrite Nat.eqb_refl.
        rewrite (sum_pick (S n) p) by lia. rewrite Nat.eqb_refl.
        assert (Hc' : sum (S n) (fun i => c i * (v (sw i) j - v (sw i) n / v p n * v p j)) = 0).
        { destruct (Nat.eq_dec j n) as [->|Nj]; [|apply Hc; lia].
          rewrite (sum_ext (S n) _ (fun _ => 0)); [apply sum_zero|]. intros i _. field. exact Np. }
        rewrite (sum_ext (S n) _ (fun i => c i * v (sw i) j - v p j * (c i * (v (sw i) n / v p n)))) in Hc' by (intros; field; exact Np).
        rewrite (sum_ext (S n) _ (fun i => c i * v (sw i) j + (- v p j) * (c i * (v (sw i) n / v p n)))) in Hc' by (intros; ring).
        rewrite sum_plus, sum_scal in Hc'. fold s in Hc'.
        rewrite (sum_pick (S n) p (fun i => c i * v (sw i) j)) in Hc' by lia.
        assert (Es : sw p = S n) by (unfold sw; rewrite Nat.eqb_refl; reflexivity). rewrite Es in Hc'.
        rewrite (sum_ext (S n) (fun j0 => if (j0 =? p)%nat then 0 else _) (fun i => if (i =? p)%nat then 0 else c i * v (sw i) j)).
        2:{ intros i Hi. destruct (i =? p)%nat eqn:E; [reflexivity|]. replace (i =? S n)%nat with false by (symmetry; apply Nat.eqb_neq; lia).
            unfold sw. rewrite E. reflexivity. }
        lra.
    + destruct (IH v) as (c & (i0 & Hi0 & Nc) & Hc). exists (fun i => if (i =? S n)%nat then 0 else c i). split.
      * exists i0. split; [lia|]. replace (i0 =? S n)%nat with false by (symmetry; apply Nat.eqb_neq; lia). exact Nc.
      * intros j Hj. change (sum (S (S n)) ?f) with (sum (S n) f + f (S n)). cbv beta. rewrite Nat.eqb_refl, Rmult_0_l, Rplus_0_r.
        destruct (Nat.eq_dec j n) as [->|Nj].
        -- rewrite (sum_ext (S n) _ (fun _ => 0)); [apply sum_zero|]. intros i Hi. rewrite Z by lia. ring.
        -- rewrite <- (Hc j) by lia. apply sum_ext. intros i Hi. replace (i =? S n)%nat with false by (symmetry; apply Nat.eqb_neq; lia). reflexivity.
Qed.

Definition dot (n : nat) (u v : nat -> R) : R := sum n (fun i => u i * v i).
Lemma dot_comm n u v : dot n u v = dot n v u.
Proof. unfold dot. apply sum_ext. intros. ring. Qed.
Lemma dot_lin n u u' c v w : (forall i, (i < n)%nat -> w i = u i + c * u' i) -> dot n w v = dot n u v + c * dot n u' v.
Proof. intros H. unfold dot. rewrite <- sum_scal, <- sum_plus. apply sum_ext. intros i Hi. rewrite H by exact Hi. ring. Qed.
(** orthogonal vectors are independent *)
Lemma orthogonal_few n (u v : nat -> nat -> R) : (forall i j, (i <= n)%nat -> (j <= n)%nat -> i <> j -> dot n (u i) (v j) = 0) -> (forall i, (i <= n)%nat -> dot n (u i) (v i) <> 0) -> False.
Proof.
  intros Ho Hn. destruct (dependent n v) as (c & (k & Hk & Nc) & Hc).
  assert (E : sum (S n) (fun i => c i * dot n (u k) (v i)) = 0).
  { unfold dot. rewrite (sum_ext (S n) _ (fun i => sum n (fun j => u k j * (c i * v i j)))).
    - rewrite sum_swap. rewrite (sum_ext n _ (fun _ => 0)); [apply sum_zero|]. intros j Hj. rewrite sum_scal, Hc by exact Hj. ring.
    - intros i _. rewrite <- sum_scal. apply sum_ext. intros. ring. }
  rewrite (sum_pick (S n) k) in E by lia. rewrite (sum_ext (S n) _ (fun _ => 0)) in E.
  - rewrite sum_zero in E. assert (c k * dot n (u k) (v k) = 0) by lra. apply Rmult_integral in H. destruct H; [exact (Nc H)|exact (Hn k Hk H)].
  - intros i Hi. destruct (i =? k)%nat eqn:Ei; [reflexivity|]. rewrite Ho; [ring|exact Hk|lia|]. apply Nat.eqb_neq in Ei. congruence.
Qed.

Section Directions.
Variables (n N : nat) (r z p w : nat -> nat -> R) (alpha beta : nat -> R).
Hypothesis z_sym : forall i j, (i <= N)%nat -> (j <= N)%nat -> dot n (z i) (r j) = dot n (z j) (r i).
Hypothesis beta_def : forall k, beta k = dot n (z k) (r k).
Hypothesis beta_pos : forall k, (k <= N)%nat -> 0 < beta k.
Hypothesis p_first : forall i, (i < n)%nat -> p 0%nat i = z 0%nat i.
Hypothesis p_next : forall k i, (k < N)%nat -> (i < n)%nat -> p (S k) i = z (S k) i + beta (S k) / beta k * p k i.
Hypothesis w_sym : forall i j, (i <= N)%nat -> (j <= N)%nat -> dot n (w i) (p j) = dot n (w j) (p i).
Hypothesis w_pos : forall k, (k <= N)%nat -> (exists i, (i < n)%nat /\ p k i <> 0) -> 0 < dot n (w k) (p k).
Hypothesis alpha_def : forall k, (k < N)%nat -> dot n (w k) (p k) <> 0 -> alpha k = beta k / dot n (w k) (p k).
Hypothesis r_next : forall k i, (k < N)%nat -> (i < n)%nat -> r (S k) i = r k i + - alpha k * w k i.

Lemma nonzero_dot u v : dot n u v <> 0 -> exists i, (i < n)%nat /\ u i <> 0.
Proof.
  intros H. assert (D : (exists i, (i < n)%nat /\ u i <> 0) \/ forall i, (i < n)%nat -> u i = 0).
  { clear H z_sym beta_def beta_pos p_first p_next w_sym w_pos alpha_def r_next. induction n as [|m [(i & Hi & E)|IH]].
    - right. intros i Hi. lia.
    - left. exists i. split; [lia|exact E].
    - destruct (Req_dec (u m) 0) as [E|E]; [|left; exists m; split; [lia|exact E]]. right. intros i Hi. destruct (Nat.eq_dec i m) as [->|Ne]; [exact E|apply IH; lia]. }
  destruct D as [D|D]; [exact D|]. exfalso. apply H. unfold dot. rewrite (sum_ext n _ (fun _ => 0)); [apply sum_zero|]. intros i Hi. rewrite D by exact Hi. ring.
Qed.
Lemma conjugate k : (k <= N)%nat ->
  (forall i j, (i < j <= k)%nat -> dot n (p i) (r j) = 0) /\
  (forall i, (i <= k)%nat -> dot n (p i) (r i) = beta i) /\
  (forall i j, (i <= k)%nat -> (j <= k)%nat -> i <> j -> dot n (z i) (r j) = 0) /\
  (forall i j, (i <= k)%nat -> (j <= k)%nat -> i <> j -> dot n (w i) (p j) = 0) /\
  (forall i, (i <= k)%nat -> 0 < dot n (w i) (p i)).
Proof.
  induction k as [|k IH]; intros Hk.
  - assert (B : dot n (p 0%nat) (r 0%nat) = beta 0%nat) by (rewrite beta_def; unfold dot; apply sum_ext; intros i Hi; rewrite p_first by exact Hi; reflexivity).
    split; [intros; lia|]. split; [intros i Hi; replace i with O by lia; exact B|]. split; [intros; lia|]. split; [intros; lia|].
    intros i Hi. replace i with O by lia. apply w_pos; [lia|]. apply (nonzero_dot _ (r 0%nat)). rewrite B. pose proof (beta_pos 0%nat Hk). lra.
  - destruct (IH ltac:(lia)) as (PR & PB & ZR & WP & WW). clear IH.
    assert (Al : alpha k = beta k / dot n (w k) (p k)) by (apply alpha_def; [lia|]; pose proof (WW k ltac:(lia)); lra).
    pose proof (WW k ltac:(lia)) as Wk. pose proof (beta_pos k ltac:(lia)) as Bk.
    assert (Rn : forall u, dot n u (r (S k)) = dot n u (r k) + - alpha k * dot n (w k) u).
    { intros u. rewrite (dot_comm n u (r (S k))), (dot_comm n u (r k)). apply dot_lin. intros i Hi. apply r_next; [lia|exact Hi]. }
    assert (A1 : forall i, (i <= k)%nat -> dot n (p i) (r (S k)) = 0).
    { intros i Hi. rewrite Rn. destruct (Nat.eq_dec i k) as [->|Ne].
      - rewrite PB by lia. rewrite Al. field. lra.
      - rewrite PR by lia. rewrite WP by lia. ring. }
    assert (A2 : forall i, (i <= k)%nat -> dot n (z i) (r (S k)) = 0).
    { intros [|i] Hi.
      - rewrite <- (A1 O Hi). unfold dot. apply sum_ext. intros j Hj. rewrite p_first by exact Hj. reflexivity.
      - pose proof (dot_lin n (z (S i)) (p i) (beta (S i) / beta i) (r (S k)) (p (S i)) ltac:(intros j Hj; apply p_next; [lia|exact Hj])) as E.
        rewrite !A1 in E by lia. lra. }
    assert (Pn : forall v, dot n (p (S k)) v = dot n (z (S k)) v + beta (S k) / beta k * dot n (p k) v) by (intros v; apply dot_lin; intros j Hj; apply p_next; [lia|exact Hj]).
    assert (A3 : dot n (p (S k)) (r (S k)) = beta (S k)) by (rewrite Pn, A1 by lia; rewrite <- beta_def; ring).
    assert (Zk : forall i, (i <= k)%nat -> dot n (z (S k)) (r i) = 0) by (intros i Hi; rewrite z_sym by lia; apply A2; exact Hi).
    assert (Ws : forall i, (i <= k)%nat -> alpha i <> 0).
    { intros i Hi. pose proof (WW i Hi). pose proof (beta_pos i ltac:(lia)). rewrite alpha_def; [|lia|lra].
      apply Rgt_not_eq, Rdiv_lt_0_compat; assumption. }
    assert (Zw : forall i, (i <= k)%nat -> alpha i * dot n (z (S k)) (w i) = dot n (z (S k)) (r i) - dot n (z (S k)) (r (S i))).
    { intros i Hi. rewrite (dot_comm n _ (r (S i))). rewrite (dot_lin n (r i) (w i) (- alpha i) (z (S k)) (r (S i))) by (intros j Hj; apply r_next; [lia|exact Hj]).
      rewrite (dot_comm n (r i)), (dot_comm n (w i)). ring. }
    assert (A4 : forall i, (i <= k)%nat -> dot n (w i) (p (S k)) = 0).
    { intros i Hi. rewrite dot_comm, Pn. pose proof (Zw i Hi) as E. rewrite Zk in E by exact Hi. destruct (Nat.eq_dec i k) as [->|Ne].
      - rewrite <- beta_def in E. rewrite (dot_comm n (p k)). apply (Rmult_eq_reg_l (alpha k)); [|apply Ws; lia].
        rewrite Rmult_plus_distr_l, E, Al. field. lra.
      - rewrite Zk in E by lia. rewrite (dot_comm n (p k)), WP by lia. apply (Rmult_eq_reg_l (alpha i)); [|apply Ws; lia]. lra. }
    split; [|split; [|split; [|split]]].
    + intros i j Hij. destruct (Nat.eq_dec j (S k)) as [->|Ne]; [apply A1; lia|apply PR; lia].
    + intros i Hi. destruct (Nat.eq_dec i (S k)) as [->|Ne]; [exact A3|apply PB; lia].
    + intros i j Hi Hj Ne. destruct (Nat.eq_dec j (S k)) as [->|Nj]; [apply A2; lia|]. destruct (Nat.eq_dec i (S k)) as [->|Ni]; [apply Zk; lia|apply ZR; lia].
    + intros i j Hi Hj Ne. destruct (Nat.eq_dec j (S k)) as [->|Nj]; [apply A4; lia|]. destruct (Nat.eq_dec i (S k)) as [->|Ni]; [rewrite w_sym by lia; apply A4; lia|apply WP; lia].
    + intros i Hi. destruct (Nat.eq_dec i (S k)) as [->|Ne]; [|apply WW; lia]. apply w_pos; [exact Hk|]. apply (nonzero_dot _ (r (S k))). rewrite A3. pose proof (beta_pos (S k) Hk). lra.
Qed.
Lemma too_many : (n <= N)%nat -> False.
Proof.
  intros H. destruct (conjugate n H) as (_ & _ & ZR & _ & _). apply (orthogonal_few n z r); [exact ZR|].
  intros i Hi. rewrite <- beta_def. pose proof (beta_pos i ltac:(lia)). lra.
Qed.
End Directions.

From Coq Require Import ZArith Reals List Bool Lra Lia.
From Verif Require Import Base DateModel DateTimeModel FillModel FillSpec.
Import ListNotations.
Local Open Scope R_scope.

Lemma steps_impl (P Q : R -> R -> Prop) l : (forall x y, P x y -> Q x y) -> steps P l -> steps Q l.
Proof. intros HPQ H. induction H; constructor; auto. Qed.
Lemma steps_app P l x r : steps P (l ++ [x]) -> steps P (x :: r) -> steps P (l ++ x :: r).
Proof.
  induction l as [|a l IH]; intros H1 H2; [exact H2|].
  destruct l as [|b l].
  - cbn in *. inversion H1; subst. constructor; assumption.
  - cbn in *. inversion H1; subst. constructor; [assumption|]. apply IH; assumption.
Qed.
Lemma steps_tail P x l : steps P (x :: l) -> steps P l.
Proof. intros H. inversion H; subst; [constructor|assumption]. Qed.
Lemma steps_and (P Q : R -> R -> Prop) l : steps P l -> steps Q l -> steps (fun x y => P x y /\ Q x y) l.
Proof. induction 1; intros H2; inversion H2; subst; constructor; auto. Qed.

Lemma nltb_R (x y : R) : nltb (Arith := RealArith) x y = true <-> x < y.
Proof. cbn. destruct (Rlt_dec x y); split; intros; try easy; lra. Qed.
Lemma nltb_R_false (x y : R) : nltb (Arith := RealArith) x y = false <-> ~ x < y.
Proof. cbn. destruct (Rlt_dec x y); split; intros; try easy; lra. Qed.

Lemma supplement_ok (min_dx s : R) : 0 <= min_dx < s -> forall j fuel next t,
  next = t + INR j * s -> (j < fuel)%nat ->
  exists l, supplement (A := RealArith) fuel min_dx s next t = Ok l /\ steps (fun x y => y - x = s) (t - s :: l ++ [next]).
Proof.
  intros Hs. induction j as [|j IH]; intros fuel next t Hn Hf; (destruct fuel as [|fuel]; [lia|]); cbn [supplement].
  - cbn [INR] in Hn. replace (nltb (Arith := RealArith) t _) with false
      by (symmetry; apply nltb_R_false; cbn; lra).
    exists []. split; [reflexivity|]. constructor; [lra|constructor].
  - rewrite S_INR in Hn.
    assert (0 <= INR j * s) by (apply Rmult_le_pos; [apply pos_INR|lra]).
    replace (nltb (Arith := RealArith) t _) with true
      by (symmetry; apply nltb_R; cbn; lra).
    destruct (IH fuel next (t + s)) as (l & El & Hl); [lra|lia|].
    change (nadd (Arith := RealArith) t s) with (t + s). rewrite El. exists (t :: l). split; [reflexivity|].
    cbn. constructor; [lra|]. replace (t + s - s) with t in Hl by lra. exact Hl.
Qed.

Lemma eps14_R : eps14 (A := RealArith) = 2 / 10 ^ 14.
Proof. unfold eps14. cbn. lra. Qed.

Lemma Int_bounds x : IZR (Int_part x) <= x < IZR (Int_part x) + 1.
Proof. pose proof (base_Int_part x). lra. Qed.

Lemma as_int_ok z : (-2147483648 <= z <= 2147483647)%Z -> as_int z = Ok z.
Proof. intros H. unfold as_int, int_range. replace (_ && _) with true; [reflexivity|]. symmetry. apply andb_true_intro. split; apply Z.leb_le; lia. Qed.

Section Fill.
Variables max_dx min_dx : R.
Variable fuel : nat.
Hypothesis Hmax : 0 < max_dx.
Hypothesis Hmin : 0 <= min_dx <= max_dx / 2.
Hypothesis Hfuel : (2 ^ 31 <= Z.of_nat fuel)%Z.

Definition fine (x y : R) : Prop := x < y /\ y - x <= max_dx / (1 - 2 / 10 ^ 14).

Lemma slack : max_dx <= max_dx / (1 - 2 / 10 ^ 14).
Proof.
  assert (0 < 1 - 2 / 10 ^ 14) by lra.
  apply Rmult_le_reg_r with (1 - 2 / 10 ^ 14); [lra|].
  unfold Rdiv at 2. rewrite Rmult_assoc, Rinv_l by lra. nra.
Qed.

Lemma fill_ok : forall rest current, increasing (current :: rest) ->
  (forall x, In x rest -> x - current < max_dx * 2147483647) ->
  exists l, fill (A := RealArith) fuel max_dx min_dx current rest = Ok l /\ steps fine (current :: l) /\ incl rest l.
Proof.
  induction rest as [|next r IH]; intros current Hinc Hr.
  - exists []. split; [reflexivity|]. split; [constructor|intros x []].
  - inversion Hinc as [| |x y l Hxy Hl]; subst.
    destruct (IH next Hl) as (tl & Et & Ht & It).
    { intros x Hx. specialize (Hr x (or_intror Hx)). lra. }
    assert (Htot : forall extra, steps fine (current :: extra ++ [next]) ->
             steps fine (current :: extra ++ next :: tl) /\ incl (next :: r) (extra ++ next :: tl)).
    { intros extra He. split.
      - exact (steps_app fine (current :: extra) next tl He Ht).
      - intros x [<-|Hx]; apply in_or_app; right; [left; reflexivity|right; apply It; exact Hx]. }
    cbn [fill]. change (nsub (Arith := RealArith) next current) with (next - current).
    destruct (nltb (Arith := RealArith) max_dx (next - current)) eqn:Eg.
    + apply nltb_R in Eg. set (g := next - current) in *.
      assert (Hg : g < max_dx * 2147483647) by (apply Hr; left; reflexivity).
      unfold trunc. rewrite eps14_R.
      change (nsub (Arith := RealArith) (ndiv (Arith := RealArith) g max_dx) (2 / 10 ^ 14)) with (g / max_dx - 2 / 10 ^ 14).
      set (q := g / max_dx). assert (Eq : q * max_dx = g) by (unfold q; field; lra).
      assert (Hq : 1 < q < 2147483647) by (split; nra).
      replace (nltb (Arith := RealArith) (q - 2 / 10 ^ 14) (of_Z (Arith := RealArith) 0)) with false
        by (symmetry; apply nltb_R_false; cbn; lra).
      change (to_int (Arith := RealArith) (q - 2 / 10 ^ 14)) with (as_int (Int_part (q - 2 / 10 ^ 14))).
      pose proof (Int_bounds (q - 2 / 10 ^ 14)) as HI.
      set (k := Int_part (q - 2 / 10 ^ 14)) in *.
      assert (Hk : (0 <= k < 2147483647)%Z).
      { split.
        - assert (-1 < k)%Z; [|lia]. apply lt_IZR. lra.
        - apply lt_IZR. lra. }
      rewrite as_int_ok by lia. cbn [obind]. rewrite as_int_ok by lia. cbn [obind].
      change (ndiv (Arith := RealArith) g (of_Z (Arith := RealArith) (k + 1))) with (g / IZR (k + 1)).
      set (n := IZR (k + 1)). assert (Hn : q - 2 / 10 ^ 14 < n <= q - 2 / 10 ^ 14 + 1)
        by (unfold n; rewrite plus_IZR; lra).
      set (sp := g / n). assert (Esp : sp * n = g) by (unfold sp; field; lra).
      assert (Hsp : max_dx / 2 < sp).
      { apply Rmult_lt_reg_r with n; [lra|]. rewrite Esp, <- Eq. nra. }
      assert (Hsp2 : sp <= max_dx / (1 - 2 / 10 ^ 14)).
      { apply Rmult_le_reg_r with (1 - 2 / 10 ^ 14); [lra|].
        unfold Rdiv at 2. rewrite Rmult_assoc, Rinv_l by lra.
        apply Rmult_le_reg_r with n; [lra|].
        replace (sp * (1 - 2 / 10 ^ 14) * n) with (g * (1 - 2 / 10 ^ 14)) by (rewrite <- Esp; ring).
        rewrite <- Eq.
        replace (q * max_dx * (1 - 2 / 10 ^ 14)) with (max_dx * (q * (1 - 2 / 10 ^ 14))) by ring.
        rewrite Rmult_1_r. apply Rmult_le_compat_l; [lra|]. nra. }
      change (nadd (Arith := RealArith) current sp) with (current + sp).
      destruct (supplement_ok min_dx sp ltac:(lra) (Z.to_nat k) fuel next (current + sp)) as (ex & Ee & He).
      { rewrite INR_IZR_INZ, Z2Nat.id by lia. unfold n in Esp. rewrite plus_IZR in Esp. unfold g in Esp. nra. }
      { lia. }
      rewrite Ee. cbn [obind]. rewrite Et. cbn [obind].
      exists (ex ++ next :: tl). split; [reflexivity|]. apply Htot.
      replace (current + sp - sp) with current in He by ring.
      revert He. apply steps_impl. intros x y E. unfold fine. lra.
    + apply nltb_R_false in Eg. cbn [obind]. rewrite Et. cbn [obind].
      exists (next :: tl). split; [reflexivity|]. apply (Htot []).
      cbn. constructor; [|constructor]. pose proof slack. unfold fine. lra.
Qed.
End Fill.

Lemma before_R (m x y : R) : before (A := RealArith) m x y = true <-> x < y - m.
Proof. unfold before. apply nltb_R. Qed.
Lemma before_R_false (m x y : R) : before (A := RealArith) m x y = false <-> ~ x < y - m.
Proof. unfold before. apply nltb_R_false. Qed.

Lemma union_nil_r (m : R) a : union (A := RealArith) m a [] = a.
Proof. destruct a; reflexivity. Qed.
Lemma union_cons (m : R) x a y b : union (A := RealArith) m (x :: a) (y :: b) =
  if before (A := RealArith) m x y then x :: union m a (y :: b)
  else if before (A := RealArith) m y x then y :: union m (x :: a) b else x :: union m a b.
Proof. reflexivity. Qed.

(** the head of both sequences lies beyond c *)
Definition after (c : R) (l : list R) := match l with [] => True | x :: _ => c < x end.
Lemma union_increasing (m : R) : 0 <= m -> forall a b c, after c a -> after c b -> increasing a -> steps_above m b ->
  increasing (c :: union (A := RealArith) m a b).
Proof.
  intros Hm. induction a as [|x a IHa].
  - intros b c _ Hc _ Hb. cbn. destruct b as [|y b]; [constructor|]. constructor; [exact Hc|].
    revert Hb. apply steps_impl. intros u v ?. lra.
  - induction b as [|y b IHb]; intros c Hcx Hcy Ha Hb.
    + rewrite union_nil_r. constructor; [exact Hcx|exact Ha].
    + rewrite union_cons. cbn [after] in *.
      assert (Hxa : after x a) by (inversion Ha; subst; [exact Logic.I|assumption]).
      assert (Hyb : after (y + m) b) by (inversion Hb; subst; [exact Logic.I|assumption]).
      pose proof (steps_tail _ _ _ Ha) as Ha'. pose proof (steps_tail _ _ _ Hb) as Hb'.
      destruct (before (A := RealArith) m x y) eqn:E1.
      * apply before_R in E1. constructor; [exact Hcx|]. apply IHa; try assumption. cbn. lra.
      * apply before_R_false in E1. destruct (before (A := RealArith) m y x) eqn:E2.
        -- apply before_R in E2. constructor; [exact Hcy|]. apply IHb; try assumption.
           ++ cbn. lra.
           ++ destruct b; [exact Logic.I|]. cbn in *. lra.
        -- apply before_R_false in E2. constructor; [exact Hcx|]. apply IHa; try assumption.
           destruct b; [exact Logic.I|]. cbn in *. lra.
Qed.

Lemma union_left {A : Arith} (m : num) : forall a b, incl a (union m a b).
Proof.
  induction a as [|x a IHa]; intros b; [intros u []|].
  induction b as [|y b IHb]; [cbn; apply incl_refl|].
  cbn [union]. fold (@union A). destruct (before m x y).
  - intros u [<-|Hu]; [left; reflexivity|right; apply IHa; exact Hu].
  - destruct (before m y x).
    + intros u Hu. right. apply IHb. exact Hu.
    + intros u [<-|Hu]; [left; reflexivity|right; apply IHa; exact Hu].
Qed.
Lemma union_right (m : R) : 0 <= m -> forall a b x, In x b -> exists y, In y (union (A := RealArith) m a b) /\ Rabs (x - y) <= m.
Proof.
  intros Hm.
  assert (Hself : forall (x : R) l, In x l -> exists y, In y l /\ Rabs (x - y) <= m).
  { intros x l H. exists x. split; [exact H|]. rewrite Rminus_diag_eq, Rabs_R0 by reflexivity. exact Hm. }
  induction a as [|x a IHa]; intros b; [intros u Hu; apply Hself; exact Hu|].
  induction b as [|y b IHb]; [intros u []|]. intros u Hu.
  rewrite union_cons. destruct (before (A := RealArith) m x y) eqn:E1.
  - destruct (IHa _ u Hu) as (v & Hv & Hd). exists v. split; [right; exact Hv|exact Hd].
  - apply before_R_false in E1. destruct (before (A := RealArith) m y x) eqn:E2.
    + destruct Hu as [<-|Hu]; [apply Hself; left; reflexivity|].
      destruct (IHb u Hu) as (v & Hv & Hd). exists v. split; [right; exact Hv|exact Hd].
    + apply before_R_false in E2. destruct Hu as [<-|Hu].
      * exists x. split; [left; reflexivity|]. apply Rabs_le. lra.
      * destruct (IHa _ u Hu) as (v & Hv & Hd). exists v. split; [right; exact Hv|exact Hd].
Qed.
Lemma union_only {A : Arith} (m : num) : forall a b x, In x (union m a b) -> In x (a ++ b).
Proof.
  induction a as [|x a IHa]; intros b; [intros u Hu; exact Hu|].
  induction b as [|y b IHb]; [cbn; intros u Hu; rewrite app_nil_r; exact Hu|].
  intros u. cbn [union]. fold (@union A). destruct (before m x y).
  - intros [<-|Hu]; [left; reflexivity|right; apply IHa; exact Hu].
  - destruct (before m y x).
    + intros [<-|Hu]; [apply in_or_app; right; left; reflexivity|].
      apply IHb in Hu. apply in_app_or in Hu. apply in_or_app. destruct Hu as [Hu|Hu]; [left|right; right]; exact Hu.
    + intros [<-|Hu]; [left; reflexivity|]. apply IHa in Hu. right. apply in_app_or in Hu.
      apply in_or_app. destruct Hu as [Hu|Hu]; [left|right; right]; exact Hu.
Qed.

Lemma sequence_left {A : Arith} m o d : incl o (sequence m o d).
Proof. unfold sequence. destruct d; [apply incl_refl|apply union_left]. Qed.

(** for any kind of number, whatever is returned contains the originals *)
Lemma fill_incl {A : Arith} fuel max_dx min_dx : forall rest current l, fill fuel max_dx min_dx current rest = Ok l -> incl rest l.
Proof.
  induction rest as [|next r IH]; intros current l E; [intros x []|].
  cbn [fill] in E. cbv zeta in E.
  match type of E with obind ?e _ = _ => destruct e as [extra| | |] end; cbn [obind] in E; try discriminate.
  destruct (fill fuel max_dx min_dx next r) as [tl| | |] eqn:Et; cbn [obind] in E; try discriminate.
  assert (l = extra ++ next :: tl) by congruence. subst l.
  intros x [<-|Hx]; apply in_or_app; right; [left; reflexivity|right; eapply IH; eauto].
Qed.

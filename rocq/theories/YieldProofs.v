(** Lines of curves. *)
From Coq Require Import Reals List ZArith Bool Arith Lia.
From Verif Require Import Base StringModel CurveModel YieldModel YieldSpec.
Import ListNotations.
Open Scope nat_scope.

Lemma same_ptr_iff a b : same_ptr a b = true <-> a = b.
Proof. destruct a as [x|], b as [y|]; cbn; try (split; congruence). rewrite Nat.eqb_eq. split; congruence. Qed.
(** bases come before the curves on them, and are curves *)
Definition sound (h : heap) : Prop :=
  forall a name f b, nth_error h a = Some (Curve name f (Some b)) -> b < a /\ exists n' f' b', nth_error h b = Some (Curve n' f' b').
Lemma as_curve_some h v a : as_curve h v = Some a -> v = Some a /\ exists n f b, nth_error h a = Some (Curve n f b).
Proof. destruct v as [x|]; cbn; [|discriminate]. destruct (nth_error h x) as [[n f b|]|] eqn:E; try discriminate. intros H. injection H as <-. eauto. Qed.
Lemma grown (h : heap) x a c : nth_error h a = Some c -> nth_error (h ++ [x]) a = Some c.
Proof. intros H. rewrite nth_error_app1; [exact H|]. apply nth_error_Some. congruence. Qed.
Lemma grown_back (h : heap) x a c : nth_error (h ++ [x]) a = Some c -> nth_error h a = Some c \/ a = length h /\ c = x.
Proof.
  intros H. destruct (Nat.lt_ge_cases a (length h)) as [L|L]; [rewrite nth_error_app1 in H by exact L; now left|]. right. rewrite nth_error_app2 in H by exact L.
  destruct (a - length h) as [|k] eqn:E; [|now destruct k]. cbn in H. injection H as <-. split; [lia|reflexivity].
Qed.
Lemma sound_curve h name f b : sound h -> as_curve h b = b -> sound (h ++ [Curve name f b]).
Proof.
  intros Hs Hb a n1 f1 b1 H. apply grown_back in H as [H|[-> H]].
  - destruct (Hs a n1 f1 b1 H) as (L & n' & f' & b' & H'). split; [exact L|]. exists n', f', b'. now apply grown.
  - assert (b = Some b1) by congruence. subst b. destruct (as_curve_some _ _ _ Hb) as (_ & n' & f' & b' & H'). split; [apply nth_error_Some; congruence|]. exists n', f', b'. now apply grown.
Qed.
Lemma as_curve_idem h v : as_curve h (as_curve h v) = as_curve h v.
Proof. destruct v as [a|]; [|reflexivity]. cbn. destruct (nth_error h a) as [[]|] eqn:E; cbn; try reflexivity. now rewrite E. Qed.
Lemma made_sound h : made h -> sound h.
Proof.
  induction 1 as [|h _ IH|h name f b _ IH Hb|h a name changes h' a' _ IH Hc].
  - intros [|a] n f b H; discriminate.
  - intros a n f b H. apply grown_back in H as [H|[_ H]]; [|discriminate]. destruct (IH a n f b H) as (L & n' & f' & b' & H'). split; [exact L|]. exists n', f', b'. now apply grown.
  - now apply sound_curve.
  - unfold clone in Hc. destruct (nth_error h a) as [[n f b|]|] eqn:E; try discriminate. injection Hc as <- _. apply sound_curve; [exact IH|]. unfold new_base. destruct (entry changes b); [apply as_curve_idem|].
    destruct b as [b|]; [|reflexivity]. destruct (IH a n f b E) as (_ & n' & f' & b' & H'). cbn. now rewrite H'.
Qed.

Lemma line_exists h : sound h -> forall a n f b, nth_error h a = Some (Curve n f b) -> exists l, line h a l.
Proof.
  intros Hs a. induction a as [a IH] using lt_wf_ind. intros n f [b|] H; [|eexists; eapply line_end; eauto].
  destruct (Hs a n f b H) as (L & n' & f' & b' & H'). destruct (IH b L n' f' b' H') as [l Hl]. eexists. eapply line_on; eauto.
Qed.
Lemma line_head h a l : line h a l -> exists l', l = a :: l'.
Proof. intros H. destruct H; eauto. Qed.
Lemma line_bound h : sound h -> forall a l, line h a l -> Forall (fun b => b <= a) l.
Proof.
  intros Hs a l H. induction H as [a n f H|a n f b l H _ IH]; constructor; auto. destruct (Hs a n f b H) as [L _]. eapply Forall_impl; [|exact IH]. cbv beta. intros; lia.
Qed.
Lemma line_nodup h : sound h -> forall a l, line h a l -> NoDup l.
Proof.
  intros Hs a l H. induction H as [a n f H|a n f b l H Hl IH]; constructor; auto; [constructor|]. destruct (Hs a n f b H) as [L _]. intros HI. pose proof (line_bound h Hs b l Hl) as F. rewrite Forall_forall in F. specialize (F a HI). lia.
Qed.
Lemma line_unique h a l : line h a l -> forall m, line h a m -> l = m.
Proof. induction 1 as [a n f H|a n f b l H _ IH]; intros m Hm; inversion Hm; subst; try congruence. f_equal. apply IH. congruence. Qed.
Lemma line_grown h x a l : line h a l -> line (h ++ [x]) a l.
Proof. induction 1 as [a n f H|a n f b l H _ IH]; [eapply line_end|eapply line_on]; eauto using grown. Qed.
Lemma line_curve h a l b : line h a l -> In b l -> exists n f c, nth_error h b = Some (Curve n f c).
Proof. induction 1 as [a n f H|a n f c l H _ IH]; intros [<-|HI]; eauto. contradiction. Qed.

Lemma poll_line h : sound h -> forall a l, line h a l -> forall fuel all, a < fuel -> poll fuel h a all = Some (all ++ l).
Proof.
  intros Hs a l H. induction H as [a n f H|a n f b l H _ IH]; intros [|fuel] all L; try lia; cbn [poll]; rewrite H; [reflexivity|]. destruct (Hs a n f b H) as [L' _]. rewrite IH by lia. now rewrite <- app_assoc.
Qed.
Definition put_in (l : list nat) (m : handles) : handles := rev (map (fun b => (Some b, Some b)) l) ++ m.
Lemma handles_line h : sound h -> forall a l, line h a l -> forall fuel all, a < fuel -> poll_handles fuel h a all = Some (put_in (tl l) all).
Proof.
  intros Hs a l H. induction H as [a n f H|a n f b l H Hl IH]; intros [|fuel] all L; try lia; cbn [poll_handles]; rewrite H; [reflexivity|]. destruct (Hs a n f b H) as [L' _]. rewrite IH by lia.
  destruct (line_head _ _ _ Hl) as [l' ->]. cbn [tl]. unfold put_in. cbn [map rev]. now rewrite <- app_assoc.
Qed.
Lemma entry_put l : forall m k, entry (put_in l m) k = match k with Some b => if existsb (Nat.eqb b) l then Some (Some b) else entry m k | None => entry m k end.
Proof.
  unfold put_in. assert (E : forall r m k, entry (map (fun b => (Some b, Some b)) r ++ m) k = match k with Some b => if existsb (Nat.eqb b) r then Some (Some b) else entry m k | None => entry m k end).
  { induction r as [|x r IH]; intros m k; cbn [map app entry existsb]; [now destruct k|]. rewrite IH. destruct k as [b|]; cbn [same_ptr]; [|reflexivity]. rewrite (Nat.eqb_sym b x). destruct (Nat.eqb_spec x b) as [->|]; reflexivity. }
  intros m k. rewrite <- map_rev, E. destruct k as [b|]; [|reflexivity]. replace (existsb (Nat.eqb b) (rev l)) with (existsb (Nat.eqb b) l); [reflexivity|].
  apply eq_true_iff_eq. rewrite !existsb_exists. split; intros (x & HI & Hx); exists x; (split; [|exact Hx]); [now apply -> in_rev|now apply <- in_rev].
Qed.

Lemma worth_line h : sound h -> forall a l, line h a l -> forall fuel x y vs, a < fuel -> Forall2 (fun b v => alone h b x y = Ok v) l vs -> discount_at fuel h a x y = Ok (product vs).
Proof.
  intros Hs a l H. induction H as [a n f H|a n f b l H Hl IH]; intros [|fuel] x y vs L F; try lia; cbn [discount_at]; rewrite H; inversion F as [|? v ? vs' Hv F']; subst; clear F.
  - inversion F'; subst. unfold alone, rates in Hv. rewrite H in Hv. cbn [df] in Hv. destruct (pwl_integral_to f y); cbn in *; try discriminate. destruct (pwl_integral_to f x); cbn in *; try discriminate. rewrite Hv. cbn. f_equal. ring.
  - destruct (Hs a n f b H) as [L' _]. rewrite (IH fuel x y vs') by (auto; lia). unfold alone, rates in Hv. rewrite H in Hv. cbn [df] in Hv. destruct (pwl_integral_to f y); cbn in *; try discriminate. destruct (pwl_integral_to f x); cbn in *; try discriminate. injection Hv as <-. f_equal. unfold product. cbn. ring.
Qed.
Lemma rates_grown h x a p : rates h a = Some p -> rates (h ++ [x]) a = Some p.
Proof. unfold rates. destruct (nth_error h a) as [[]|] eqn:E; try discriminate. now rewrite (grown _ _ _ _ E). Qed.

(** a copy, whatever its base *)
Lemma clone_line h a name changes h' a' l p : made h -> line h a l -> rates h a = Some p -> clone h a name changes = Some (h', a') ->
  a' = length h /\ rates h' a' = Some p /\ (exists x, h' = h ++ [x]) /\
  forall b, hd_error (tl l) = b -> (new_base h b changes = None -> line h' a' [a']) /\ (forall c m, new_base h b changes = Some c -> line h c m -> line h' a' (a' :: m)).
Proof.
  intros Hm Hl Hr Hc. unfold clone in Hc. destruct (nth_error h a) as [[n f b0|]|] eqn:E; try discriminate. injection Hc as <- <-. unfold rates in Hr. rewrite E in Hr. injection Hr as ->.
  assert (Hn : nth_error (h ++ [Curve name p (new_base h b0 changes)]) (length h) = Some (Curve name p (new_base h b0 changes))) by (rewrite nth_error_app2 by lia; now rewrite Nat.sub_diag).
  split; [reflexivity|]. split; [unfold rates; now rewrite Hn|]. split; [now eexists|]. intros b Hb.
  assert (b = b0). { inversion Hl as [? n1 f1 H1|? n1 f1 b1 l1 H1 H2]; subst; [cbn; congruence|]. destruct (line_head _ _ _ H2) as [l2 ->]. cbn. congruence. }
  subst b0. split; [intros Q; rewrite Q in *; eapply line_end; eauto|]. intros c m Q Hm'. rewrite Q in *. eapply line_on; [eauto|]. now apply line_grown.
Qed.

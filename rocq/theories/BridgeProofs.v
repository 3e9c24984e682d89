(** The Brownian bridge: the index search never fails, and the map is orthogonal. *)
From Coq Require Import List Arith Lia Bool Reals Lra Psatz.
From Verif Require Import Base Vec BridgeModel BridgeSpec.
Import ListNotations.

(** * The order of construction *)
(** [rend m g]: [m] is made of runs of zeros of lengths [g], each followed by a nonzero entry. *)
Inductive rend : list nat -> list nat -> Prop :=
| rend_nil : rend [] []
| rend_cons g gs v m : v <> 0 -> rend m gs -> rend (repeat 0 g ++ v :: m) (g :: gs).
Lemma rend_app m1 g1 m2 g2 : rend m1 g1 -> rend m2 g2 -> rend (m1 ++ m2) (g1 ++ g2).
Proof. induction 1; intros H2; cbn; [exact H2|]. rewrite <- app_assoc. cbn. constructor; auto. Qed.
Lemma skip_used_run b : forall a c f, Forall (fun v => v <> 0) b -> length b < f -> skip_used f (a ++ b ++ 0 :: c) (length a) = Ok (length a + length b).
Proof.
  induction b as [|x b IH]; intros a c f Hb Hf; (destruct f as [|f]; [cbn in Hf; lia|]); cbn [skip_used app].
  - rewrite get_app. cbn. f_equal. lia.
  - rewrite get_app. cbn [obind]. apply Forall_cons_iff in Hb as [Hx Hb]. apply Nat.eqb_neq in Hx. rewrite Hx.
    specialize (IH (a ++ [x]) c f Hb). rewrite <- app_assoc, app_length in IH. cbn [app length] in *. rewrite IH by lia. f_equal. lia.
Qed.
Lemma skip_free_run g : forall a v c f, v <> 0 -> g < f -> skip_free f (a ++ repeat 0 g ++ v :: c) (length a) = Ok (length a + g).
Proof.
  induction g as [|g IH]; intros a v c f Hv Hf; (destruct f as [|f]; [lia|]); cbn [skip_free app repeat].
  - rewrite get_app. cbn [obind]. apply Nat.eqb_neq in Hv. rewrite Hv. f_equal. lia.
  - rewrite get_app. cbn [obind Nat.eqb]. specialize (IH (a ++ [0]) v c f Hv). rewrite <- app_assoc, app_length in IH. cbn [app length] in *. rewrite IH by lia. f_equal. lia.
Qed.
(** the first nonempty gap *)
Lemma rend_first m gs : rend m gs -> 0 < list_sum gs -> exists z g gs' b v m', gs = repeat 0 z ++ g :: gs' /\ 0 < g /\ m = b ++ repeat 0 g ++ v :: m' /\ v <> 0 /\ rend m' gs' /\ Forall (fun v => v <> 0) b /\ length b = z /\ rend b (repeat 0 z).
Proof.
  induction 1 as [|g gs v m Hv H IH]; cbn [list_sum fold_right]; intros Hs; [cbn in Hs; lia|]. destruct g as [|g].
  - destruct IH as (z & g & gs' & b & v' & m' & -> & Hg & -> & Hv' & Hr & Hb & Hl & Hrb); [cbn in Hs; exact Hs|]. exists (S z), g, gs', (v :: b), v', m'.
    cbn [repeat app length]. split; [reflexivity|]. split; [exact Hg|]. split; [reflexivity|]. split; [exact Hv'|]. split; [exact Hr|]. split; [now constructor|]. split; [now rewrite Hl|].
    change (v :: b) with (repeat 0 0 ++ v :: b). now constructor.
  - exists 0, (S g), gs, [], v, m. split; [reflexivity|]. split; [lia|]. split; [reflexivity|]. split; [exact Hv|]. split; [exact H|]. split; [constructor|]. split; [reflexivity|constructor].
Qed.
Lemma rend_length m gs : rend m gs -> length m = list_sum gs + length gs.
Proof. induction 1 as [|g gs v m Hv H IH]; [reflexivity|]. rewrite app_length, repeat_length. cbn [length]. change (list_sum (g :: gs)) with (g + list_sum gs). lia. Qed.
Lemma list_sum_repeat0 z : list_sum (repeat 0 z) = 0.
Proof. induction z; cbn; auto. Qed.
Definition is_used (m : list nat) (x : nat) : bool := negb (nth x m 0 =? 0).
Lemma rend_full m gs : rend m gs -> list_sum gs = 0 -> forall x, x < length m -> is_used m x = true.
Proof.
  induction 1 as [|g gs v m Hv H IH]; intros Hs x Hx; [cbn in Hx; lia|]. change (list_sum (g :: gs)) with (g + list_sum gs) in Hs. assert (g = 0) by lia. subst g. destruct x as [|x]; cbn in Hx |- *.
  - unfold is_used. cbn. apply Nat.eqb_neq in Hv. now rewrite Hv.
  - apply IH; lia.
Qed.

Lemma list_sum_cons g gs : list_sum (g :: gs) = g + list_sum gs.
Proof. reflexivity. Qed.
Lemma nth_run a g c x : length a <= x < length a + g -> nth x (a ++ repeat 0 g ++ c) 0 = 0.
Proof. intros H. rewrite app_nth2 by lia. rewrite app_nth1 by (rewrite repeat_length; lia). apply nth_repeat. Qed.
Lemma last_max_sum gs s : gs <> [] -> last gs 0 = s -> Forall (fun g => g <= s) gs -> 0 < list_sum gs -> 0 < s.
Proof.
  intros Hn Hl Hf Hs. destruct s as [|s]; [|lia]. exfalso. assert (list_sum gs = 0); [|lia]. clear - Hf. induction Hf as [|g gs Hg _ IH]; [reflexivity|]. rewrite list_sum_cons. lia.
Qed.
Lemma last_app_ne {A} (a b : list A) d : b <> [] -> last (a ++ b) d = last b d.
Proof. intros H. induction a as [|x a IH]; [reflexivity|]. cbn [app]. destruct (a ++ b) eqn:E; [destruct a; [cbn in E; congruence|discriminate]|]. rewrite <- IH. reflexivity. Qed.

Lemma init_loop_ok n todo : forall i m j mp mu P U s,
  m = mp ++ mu -> length m = n -> rend mp P -> rend mu U -> j = length mp -> 0 < i ->
  U <> [] -> last U 0 = s -> Forall (fun g => g <= s) U -> Forall (fun g => g <= s / 2) P ->
  list_sum (P ++ U) = todo ->
  exists steps, init_loop todo n i m j = Ok steps /\ ordered n (is_used m) steps /\ length steps = todo.
Proof.
  induction todo as [|todo IH]; intros i m j mp mu P U s Em Hn HP HU Ej Hi HUn Hlast HfU HfP Hsum.
  - exists []. cbn. split; [reflexivity|]. split; [|reflexivity]. intros x Hx. apply (rend_full m (P ++ U)); [subst m; now apply rend_app|exact Hsum|lia].
  - assert (Hs : 0 < s).
    { apply (last_max_sum (P ++ U)); [destruct P; [exact HUn|discriminate]|now rewrite last_app_ne| |lia]. apply Forall_app. split; [|exact HfU].
      eapply Forall_impl; [|exact HfP]. intros g Hg. cbv beta in *. assert (s / 2 <= s) by (apply Nat.div_le_upper_bound; lia). lia. }
    assert (HsU : 0 < list_sum U).
    { destruct (@exists_last _ U HUn) as (U0 & g & EU). subst U. rewrite last_last in Hlast. subst g. rewrite list_sum_app, list_sum_cons. lia. }
    destruct (rend_first mu U HU HsU) as (z & g & U' & b & v & mu' & EU & Hg & Emu & Hv & HU' & Hb & Hlb & Hrb).
    assert (Hlen : length m = length mp + (length b + (g + S (length mu')))).
    { subst m mu. rewrite !app_length, repeat_length. cbn [length]. lia. }
    cbn [init_loop].
    assert (E1 : skip_used (S n) m j = Ok (length mp + length b)).
    { subst m mu j. destruct g as [|g']; [lia|]. cbn [repeat app]. apply skip_used_run; [exact Hb|]. lia. }
    rewrite E1. cbn [obind].
    assert (E2 : skip_free (S n) m (length mp + length b) = Ok (length mp + length b + g)).
    { subst m mu. rewrite app_assoc. rewrite <- app_length. apply skip_free_run; [exact Hv|]. lia. }
    rewrite E2. cbn [obind]. set (j1 := length mp + length b) in *.
    replace (j1 + g - 1 - j1) with (g - 1) by lia. set (gl := (g - 1) / 2). set (gr := g - 1 - gl).
    assert (Hgl : gl <= g - 1) by (unfold gl; apply Nat.div_le_upper_bound; lia).
    assert (Hglr : 2 * gl <= g - 1) by (unfold gl; pose proof (Nat.mul_div_le (g - 1) 2); lia).
    assert (Hglr2 : g - 1 < 2 * gl + 2) by (unfold gl; pose proof (Nat.mul_succ_div_gt (g - 1) 2); lia).
    rewrite put_ok by lia. cbn [obind]. set (m' := set_nth m (j1 + gl) i).
    assert (Em' : m' = (mp ++ b ++ repeat 0 gl ++ i :: repeat 0 gr ++ v :: []) ++ mu').
    { unfold m'. assert (Er : repeat 0 g = repeat 0 gl ++ 0 :: repeat 0 gr). { change (0 :: repeat 0 gr) with (repeat 0 (S gr)). rewrite <- repeat_app. f_equal. lia. }
      subst m mu. rewrite Er. replace (mp ++ b ++ (repeat 0 gl ++ 0 :: repeat 0 gr) ++ v :: mu') with ((mp ++ b ++ repeat 0 gl) ++ 0 :: repeat 0 gr ++ v :: mu') by (rewrite <- !app_assoc; reflexivity).
      replace (j1 + gl) with (length (mp ++ b ++ repeat 0 gl)) by (rewrite !app_length, repeat_length; lia). rewrite set_nth_app. rewrite <- !app_assoc. cbn. rewrite <- !app_assoc. reflexivity. }
    set (mp' := mp ++ b ++ repeat 0 gl ++ i :: repeat 0 gr ++ v :: []) in *. set (P' := P ++ repeat 0 z ++ gl :: gr :: []).
    assert (HP' : rend mp' P').
    { unfold mp', P'. apply rend_app; [exact HP|]. apply rend_app; [exact Hrb|]. constructor; [lia|]. constructor; [exact Hv|constructor]. }
    assert (Hlmp : length mp' = j1 + g + 1). { unfold mp'. rewrite !app_length, !repeat_length. cbn [length]. rewrite app_length, repeat_length. cbn [length]. lia. }
    assert (Hsum' : list_sum (P' ++ U') = todo).
    { subst U. unfold P'. rewrite !list_sum_app, !list_sum_cons, list_sum_repeat0 in *. cbn [list_sum fold_right]. lia. }
    assert (Hgs : g <= s). { subst U. apply Forall_app in HfU as [_ HfU]. now apply Forall_cons_iff in HfU as [? _]. }
    assert (Hs2 : gr <= s / 2). { apply Nat.div_le_lower_bound; lia. }
    assert (HfP' : Forall (fun g => g <= s / 2) P').
    { unfold P'. apply Forall_app. split; [exact HfP|]. apply Forall_app. split; [apply Forall_forall; intros x Hx; apply repeat_spec in Hx; lia|]. repeat constructor; lia. }
    assert (Hlen' : length m' = n) by (unfold m'; rewrite set_nth_length; exact Hn).
    assert (Ord : forall steps, ordered n (is_used m') steps -> ordered n (is_used m) (Step (j1 + gl) j1 (j1 + g) :: steps)).
    { intros steps Ho. cbn [ordered bridge left_ right_]. split; [lia|]. split; [|split; [|split]].
      - unfold is_used. subst m mu. replace (mp ++ b ++ repeat 0 g ++ v :: mu') with ((mp ++ b ++ repeat 0 g) ++ v :: mu') by (rewrite <- !app_assoc; reflexivity).
        rewrite app_nth2 by (rewrite !app_length, repeat_length; lia). replace (j1 + g - length (mp ++ b ++ repeat 0 g)) with 0 by (rewrite !app_length, repeat_length; lia). cbn. apply Nat.eqb_neq in Hv. now rewrite Hv.
      - destruct (Nat.eq_dec j1 0) as [|Hj1]; [now left|right]. assert (Hmb : rend (mp ++ b) (P ++ repeat 0 z)) by now apply rend_app.
        unfold is_used. subst m mu. rewrite app_assoc. rewrite app_nth1 by (rewrite app_length; lia).
        assert (Hl1 : length (mp ++ b) = j1) by (rewrite app_length; reflexivity). rewrite <- Hl1. rewrite <- Hl1 in Hj1. clear - Hmb Hj1. rename Hmb into H.
        induction H as [|g gs v m Hv H IH]; [cbn in Hj1; congruence|]. destruct m as [|y m].
        + rewrite app_length, repeat_length. cbn [length]. rewrite app_nth2 by (rewrite repeat_length; lia). rewrite repeat_length. replace (g + 1 - 1 - g) with 0 by lia. cbn. apply Nat.eqb_neq in Hv. now rewrite Hv.
        + rewrite app_length, repeat_length. cbn [length] in *. rewrite app_nth2 by (rewrite repeat_length; lia). rewrite repeat_length. replace (g + S (S (length m)) - 1 - g) with (S (S (length m) - 1)) by lia. cbn [nth]. apply IH. lia.
      - intros x Hx. unfold is_used. subst m mu. rewrite app_assoc. rewrite nth_run; [reflexivity|]. rewrite app_length. fold j1. lia.
      - eapply ordered_ext; [|exact Ho]. intros x. unfold is_used, m'. rewrite nth_set_nth by lia. destruct (x =? j1 + gl); cbn; [|reflexivity]. destruct (i =? 0) eqn:Ei; [apply Nat.eqb_eq in Ei; lia|reflexivity]. }
    destruct U' as [|u0 U''].
    + inversion HU'; subst mu'. rewrite app_nil_r in Em'. cbn [length] in Hlen. replace (n <=? j1 + g + 1) with true by (symmetry; apply Nat.leb_le; lia).
      assert (Eg : g = s). { subst U. rewrite last_app_ne in Hlast by discriminate. exact Hlast. }
      destruct (IH (i + 1) m' 0 [] mp' [] P' (s / 2)) as (steps & E & Ho & Hl).
      * exact Em'.
      * exact Hlen'.
      * constructor.
      * exact HP'.
      * reflexivity.
      * lia.
      * unfold P'. destruct P, z; discriminate.
      * unfold P'. rewrite !last_app_ne by (try discriminate; destruct z; discriminate). cbn [last]. apply Nat.div_unique with (r := s - 2 * gr); lia.
      * exact HfP'.
      * constructor.
      * rewrite app_nil_r in Hsum'. exact Hsum'.
      * rewrite E. cbn [obind]. eexists. split; [reflexivity|]. split; [now apply Ord|cbn; lia].
    + assert (Hmu : 0 < length mu'). { inversion HU'. rewrite app_length. cbn. lia. }
      replace (n <=? j1 + g + 1) with false by (symmetry; apply Nat.leb_gt; lia).
      destruct (IH (i + 1) m' (j1 + g + 1) mp' mu' P' (u0 :: U'') s) as (steps & E & Ho & Hl).
      * exact Em'.
      * exact Hlen'.
      * exact HP'.
      * exact HU'.
      * now symmetry.
      * lia.
      * discriminate.
      * subst U. rewrite last_app_ne in Hlast by discriminate. exact Hlast.
      * subst U. apply Forall_app in HfU as [_ HfU]. now apply Forall_cons_iff in HfU as [_ ?].
      * exact HfP'.
      * exact Hsum'.
      * rewrite E. cbn [obind]. eexists. split; [reflexivity|]. split; [now apply Ord|cbn; lia].
Qed.
Lemma bridge_init_ok n : 0 < n -> exists steps, bridge_init n = Ok steps /\ ordered n (fun x => x =? n - 1) steps /\ length steps = n - 1.
Proof.
  intros Hn. unfold bridge_init. destruct (n =? 0) eqn:E; [apply Nat.eqb_eq in E; lia|]. rewrite put_ok by (rewrite repeat_length; lia). cbn [obind].
  assert (Em : set_nth (repeat 0 n) (n - 1) 1 = repeat 0 (n - 1) ++ [1]).
  { replace (repeat 0 n) with (repeat 0 (n - 1) ++ [0]) by (replace n with (n - 1 + 1) at 2 by lia; now rewrite repeat_app). rewrite <- (repeat_length 0 (n - 1)) at 2. apply set_nth_app. }
  destruct (init_loop_ok n (n - 1) 1 (repeat 0 (n - 1) ++ [1]) 0 [] (repeat 0 (n - 1) ++ [1]) [] [n - 1] (n - 1)) as (steps & Es & Ho & Hl).
  - reflexivity.
  - rewrite app_length, repeat_length. cbn. lia.
  - constructor.
  - constructor; [lia|constructor].
  - reflexivity.
  - lia.
  - discriminate.
  - reflexivity.
  - repeat constructor.
  - constructor.
  - cbn. lia.
  - rewrite Em, Es. exists steps. split; [reflexivity|]. split; [|exact Hl]. eapply ordered_ext; [|exact Ho]. intros x. unfold is_used. destruct (x =? n - 1) eqn:Ex.
    + apply Nat.eqb_eq in Ex. subst x. rewrite app_nth2; rewrite repeat_length; [|lia]. now rewrite Nat.sub_diag.
    + apply Nat.eqb_neq in Ex. destruct (Nat.lt_ge_cases x (n - 1)).
      * rewrite app_nth1 by (rewrite repeat_length; lia). now rewrite nth_repeat.
      * rewrite nth_overflow; [reflexivity|]. rewrite app_length, repeat_length. cbn. lia.
Qed.

(** * The linear map *)
Local Open Scope R_scope.
Lemma sum_ext n f g : (forall i, (i < n)%nat -> f i = g i) -> sum n f = sum n g.
Proof. induction n as [|n IH]; cbn; intros H; [reflexivity|]. rewrite IH, H; auto. Qed.
Lemma sum_add n f g : sum n (fun i => f i + g i) = sum n f + sum n g.
Proof. induction n as [|n IH]; cbn; [ring|]. rewrite IH. ring. Qed.
Lemma sum_scal n a f : sum n (fun i => a * f i) = a * sum n f.
Proof. induction n as [|n IH]; cbn; [ring|]. rewrite IH. ring. Qed.
Definition unit_ (i m : nat) : R := if (m =? i)%nat then 1 else 0.
Lemma sum_unit n i f : sum n (fun m => unit_ i m * f m) = if (i <? n)%nat then f i else 0.
Proof.
  unfold unit_. induction n as [|n IH]; cbn [sum]; [reflexivity|]. rewrite IH. destruct (Nat.ltb_spec i n), (Nat.ltb_spec i (S n)), (Nat.eqb_spec n i); try lia; subst; ring.
Qed.
Definition dot (n : nat) (f g : nat -> R) : R := sum n (fun i => f i * g i).
Lemma dot_sym n f g : dot n f g = dot n g f.
Proof. apply sum_ext. intros. ring. Qed.
Lemma dot_lin n a b c f g e h : dot n (fun m => a * f m + b * g m + c * e m) h = a * dot n f h + b * dot n g h + c * dot n e h.
Proof. unfold dot. rewrite <- !sum_scal, <- !sum_add. apply sum_ext. intros. ring. Qed.
Lemma dot_zero n h : dot n (fun _ => 0) h = 0.
Proof. unfold dot. rewrite sum_scal. ring. Qed.
Lemma dot_unit n i f : (i < n)%nat -> dot n (unit_ i) f = f i.
Proof. intros H. unfold dot. rewrite sum_unit. apply Nat.ltb_lt in H. now rewrite H. Qed.

Lemma time_S i : time (S i) = time i + 1.
Proof. unfold time. replace (S i + 1)%nat with (S (i + 1)) by lia. now rewrite S_INR. Qed.
Lemma time_lt i j : (i < j)%nat -> time i < time j.
Proof. intros H. unfold time. apply lt_INR. lia. Qed.
Lemma time_pos i : 0 < time i.
Proof. unfold time. apply lt_0_INR. lia. Qed.

(** time before index [j]: 0 if [j] is 0 *)
Definition tleft (j : nat) : R := if (j =? 0)%nat then 0 else time (j - 1).
Lemma tleft_lt j l : (j <= l)%nat -> tleft j < time l.
Proof. intros H. unfold tleft. destruct (Nat.eqb_spec j 0); [apply time_pos|]. apply time_lt. lia. Qed.
Lemma tleft_nonneg j : 0 <= tleft j.
Proof. unfold tleft. destruct (j =? 0)%nat; [lra|]. apply Rlt_le, time_pos. Qed.
Lemma weights s : (left_ s <= bridge s < right_ s)%nat ->
  let t0 := tleft (left_ s) in let t1 := time (bridge s) in let t2 := time (right_ s) in
  left_weight s = (t2 - t1) / (t2 - t0) /\ right_weight s = (t1 - t0) / (t2 - t0) /\ std_dev s * std_dev s = (t1 - t0) * (t2 - t1) / (t2 - t0).
Proof.
  intros H. cbn zeta. unfold left_weight, right_weight, std_dev, tleft.
  destruct (Nat.eqb_spec (left_ s) 0) as [E|E].
  - pose proof (time_pos (right_ s)). pose proof (time_pos (bridge s)). pose proof (time_lt (bridge s) (right_ s) ltac:(lia)). rewrite !Rminus_0_r. split; [reflexivity|]. split; [reflexivity|]. apply sqrt_sqrt.
    apply Rlt_le, Rdiv_lt_0_compat; [|lra]. apply Rmult_lt_0_compat; lra.
  - pose proof (time_lt (left_ s - 1) (bridge s) ltac:(lia)). pose proof (time_lt (bridge s) (right_ s) ltac:(lia)). split; [reflexivity|]. split; [reflexivity|]. apply sqrt_sqrt.
    apply Rlt_le, Rdiv_lt_0_compat; [|lra]. apply Rmult_lt_0_compat; lra.
Qed.

(** [c x] are the coefficients of the path at time x; [brownian]: covariance min(t_x, t_y) *)
Definition supported (used : nat -> bool) (i : nat) (c : nat -> nat -> R) : Prop := forall x m, used x = true -> (i <= m)%nat -> c x m = 0.
Definition brownian (n : nat) (used : nat -> bool) (c : nat -> nat -> R) : Prop := forall x y, used x = true -> used y = true -> dot n (c x) (c y) = time (Nat.min x y).
Definition agrees (n : nat) (used : nat -> bool) (c : nat -> nat -> R) (z w : list R) : Prop :=
  length w = n /\ forall x, (x < n)%nat -> used x = true -> nth x w 0 = dot n (c x) (fun i => nth i z 0).

Lemma fill_steps_ok n steps : forall i used c, ordered n used steps -> (i + length steps = n)%nat -> supported used i c -> brownian n used c ->
  exists c', brownian n (fun x => (x <? n)%nat) c' /\ forall z w, length z = n -> agrees n used c z w -> exists w', fill_steps steps i z w = Ok w' /\ agrees n (fun x => (x <? n)%nat) c' z w'.
Proof.
  induction steps as [|s steps IH]; intros i used c Ho Hi Hs Hb.
  - cbn in Ho. exists c. split.
    + intros x y Hx Hy. apply Nat.ltb_lt in Hx, Hy. apply Hb; auto.
    + intros z w Hz [Hw Ha]. exists w. split; [reflexivity|]. split; [exact Hw|]. intros x Hx _. auto.
  - cbn [ordered] in Ho. cbn [length] in Hi. destruct Ho as ((Hlr & Hrn) & Hur & Hul & Hfree & Ho). destruct (weights s Hlr) as (Wl & Wr & Ws).
    set (t0 := tleft (left_ s)) in *. set (t1 := time (bridge s)) in *. set (t2 := time (right_ s)) in *.
    assert (T01 : t0 < t1) by (apply tleft_lt; lia). assert (T12 : t1 < t2) by (apply time_lt; lia).
    set (cl := if (left_ s =? 0)%nat then (fun _ => 0) else c (left_ s - 1)%nat).
    set (cnew := fun m => left_weight s * cl m + right_weight s * c (right_ s) m + std_dev s * unit_ i m).
    set (c' := fun x => if (x =? bridge s)%nat then cnew else c x).
    assert (Hub : used (bridge s) = false) by (apply Hfree; lia).
    assert (Dl : forall y, used y = true -> dot n cl (c y) = if (y <? left_ s)%nat then time y else t0).
    { intros y Hy. unfold cl, t0, tleft. destruct (Nat.eqb_spec (left_ s) 0) as [E|E].
      - rewrite E. cbn [Nat.ltb Nat.leb]. apply dot_zero.
      - destruct Hul as [|Hul]; [contradiction|]. rewrite Hb by assumption. destruct (Nat.ltb_spec y (left_ s)); f_equal; lia. }
    assert (Dr : forall y, used y = true -> dot n (c (right_ s)) (c y) = if (y <? left_ s)%nat then time y else t2).
    { intros y Hy. rewrite Hb by assumption. unfold t2. destruct (Nat.ltb_spec y (left_ s)); f_equal; [lia|]. destruct (Nat.lt_ge_cases y (right_ s)); [|lia]. rewrite Hfree in Hy by lia. discriminate. }
    assert (Du : forall y, used y = true -> dot n (unit_ i) (c y) = 0).
    { intros y Hy. rewrite dot_unit by lia. apply Hs; auto. }
    assert (Dy : forall y, used y = true -> dot n cnew (c y) = time (Nat.min (bridge s) y)).
    { intros y Hy. unfold cnew. rewrite dot_lin, Dl, Dr, Du, Wl, Wr by assumption. destruct (Nat.ltb_spec y (left_ s)).
      - replace (Nat.min (bridge s) y) with y by lia. field. lra.
      - assert (right_ s <= y)%nat. { destruct (Nat.lt_ge_cases y (right_ s)); [|lia]. rewrite Hfree in Hy by lia. discriminate. }
        replace (Nat.min (bridge s) y) with (bridge s) by lia. fold t1. field. lra. }
    assert (Dn : dot n cnew cnew = t1).
    { unfold cnew at 1. rewrite dot_lin. rewrite (dot_sym n (c (right_ s)) cnew), (Dy (right_ s) Hur). replace (Nat.min (bridge s) (right_ s)) with (bridge s) by lia. fold t1.
      rewrite dot_unit by lia. assert (Ecl : cl i = 0). { unfold cl. destruct (Nat.eqb_spec (left_ s) 0); [reflexivity|]. destruct Hul; [contradiction|]. apply Hs; auto. }
      assert (Eci : cnew i = std_dev s). { unfold cnew. rewrite Ecl, (Hs (right_ s) i Hur) by lia. unfold unit_. rewrite Nat.eqb_refl. ring. }
      rewrite Eci, Ws. assert (Ecc : dot n cl cnew = t0).
      { unfold cl. unfold t0, tleft. destruct (Nat.eqb_spec (left_ s) 0) as [E|E].
        - apply dot_zero.
        - destruct Hul as [|Hul]; [contradiction|]. rewrite dot_sym, (Dy _ Hul). f_equal. lia. }
      rewrite Ecc, Wl, Wr. field. lra. }
    destruct (IH (i + 1)%nat (fun x => (x =? bridge s) || used x)%bool c' Ho ltac:(lia)) as (cf & Hcf & Hf).
    + intros x m Hx Hm. unfold c'. destruct (Nat.eqb_spec x (bridge s)).
      * unfold cnew. rewrite (Hs (right_ s) m Hur) by lia. assert (Ecl : cl m = 0). { unfold cl. destruct (Nat.eqb_spec (left_ s) 0); [reflexivity|]. destruct Hul; [contradiction|]. apply Hs; auto. lia. }
        rewrite Ecl. unfold unit_. destruct (Nat.eqb_spec m i); [lia|]. ring.
      * cbn in Hx. apply Hs; [exact Hx|lia].
    + intros x y Hx Hy. unfold c'. destruct (Nat.eqb_spec x (bridge s)) as [->|Nx], (Nat.eqb_spec y (bridge s)) as [->|Ny]; cbn in Hx, Hy.
      * rewrite Dn, Nat.min_id. reflexivity.
      * apply Dy, Hy.
      * rewrite dot_sym, (Dy x Hx). f_equal. lia.
      * apply Hb; assumption.
    + exists cf. split; [exact Hcf|]. intros z w Hz [Hw Ha]. cbn [fill_steps].
      rewrite (get_ok w (right_ s) 0) by lia. rewrite (get_ok z i 0) by lia. cbn [obind].
      assert (Ev : (if (left_ s =? 0)%nat then Ok (right_weight s * nth (right_ s) w 0 + std_dev s * nth i z 0)
        else do wj <- get w (left_ s - 1); Ok (left_weight s * wj + right_weight s * nth (right_ s) w 0 + std_dev s * nth i z 0)) = Ok (dot n cnew (fun i => nth i z 0))).
      { unfold cnew. rewrite dot_lin, dot_unit by lia. rewrite (Ha (right_ s)) by (assumption || lia). unfold cl. destruct (Nat.eqb_spec (left_ s) 0) as [E|E].
        - f_equal. rewrite dot_zero. ring.
        - destruct Hul as [|Hul]; [contradiction|]. rewrite (get_ok w (left_ s - 1) 0) by lia. cbn [obind]. rewrite (Ha (left_ s - 1)%nat) by (assumption || lia). reflexivity. }
      rewrite Ev. cbn [obind]. rewrite put_ok by lia. cbn [obind]. apply Hf; [exact Hz|]. split; [rewrite set_nth_length; exact Hw|].
      intros x Hx Hux. rewrite nth_set_nth by lia. unfold c'. destruct (Nat.eqb_spec x (bridge s)); [reflexivity|]. cbn in Hux. auto.
Qed.

(** the increments *)
Lemma sqrt_dt_1 i : sqrt_dt i = 1.
Proof. destruct i; cbn [sqrt_dt]; [unfold time; cbn; apply sqrt_1|]. rewrite time_S. replace (time i + 1 - time i) with 1 by ring. apply sqrt_1. Qed.
Lemma variations_ok i : forall w, (i < length w)%nat -> exists w', variations i w = Ok w' /\ length w' = length w /\
  forall x, nth x w' 0 = if (x <=? i)%nat then nth x w 0 - (match x with O => 0 | S y => nth y w 0 end) else nth x w 0.
Proof.
  induction i as [|i IH]; intros w Hw; cbn [variations]; rewrite (get_ok w _ 0) by lia; cbn [obind]; rewrite sqrt_dt_1.
  - rewrite put_ok by lia. eexists. split; [reflexivity|]. split; [apply set_nth_length|]. intros x. rewrite nth_set_nth by lia. destruct x; cbn; [field|reflexivity].
  - rewrite (get_ok w i 0) by lia. cbn [obind]. rewrite put_ok by lia. cbn [obind]. destruct (IH (set_nth w (S i) ((nth (S i) w 0 - nth i w 0) / 1))) as (w' & E & L & H); [rewrite set_nth_length; lia|].
    exists w'. split; [exact E|]. split; [rewrite L; apply set_nth_length|]. intros x. rewrite H. destruct (Nat.leb_spec x i), (Nat.leb_spec x (S i)); try lia.
    + rewrite nth_set_other by lia. destruct x as [|y]; [reflexivity|]. rewrite nth_set_other by lia. reflexivity.
    + replace x with (S i) by lia. rewrite nth_set_same by lia. field.
    + rewrite nth_set_other by lia. reflexivity.
Qed.
Definition increments (c : nat -> nat -> R) (x m : nat) : R := match x with O => c 0%nat m | S y => c x m - c y m end.
Lemma dot_sub_l n f g h : dot n (fun m => f m - g m) h = dot n f h - dot n g h.
Proof. unfold dot. replace (sum n (fun i => f i * h i) - sum n (fun i => g i * h i)) with (sum n (fun i => f i * h i) + -1 * sum n (fun i => g i * h i)) by ring. rewrite <- sum_scal, <- sum_add. apply sum_ext. intros. ring. Qed.
Lemma increments_orthogonal n c : brownian n (fun x => (x <? n)%nat) c -> orthogonal n (increments c).
Proof.
  intros H a b Ha Hb. change (sum n (fun i => increments c a i * increments c b i)) with (dot n (increments c a) (increments c b)).
  assert (D : forall x y, (x < n)%nat -> (y < n)%nat -> dot n (c x) (c y) = time (Nat.min x y)) by (intros; apply H; now apply Nat.ltb_lt).
  assert (T0 : time 0 = 1) by (unfold time; cbn; ring).
  destruct a as [|a], b as [|b]; unfold increments.
  - rewrite D by lia. exact T0.
  - rewrite dot_sym, dot_sub_l, !D by lia. rewrite !Nat.min_0_r. cbn [Nat.eqb]. ring.
  - rewrite dot_sub_l, !D by lia. rewrite !Nat.min_0_r. cbn [Nat.eqb]. ring.
  - rewrite dot_sub_l, (dot_sym n (c (S a))), (dot_sym n (c a)), !dot_sub_l, !D by lia. destruct (Nat.eqb_spec (S a) (S b)) as [E|E].
    + injection E as ->. rewrite !Nat.min_id. replace (Nat.min b (S b)) with b by lia. replace (Nat.min (S b) b) with b by lia. rewrite time_S. ring.
    + destruct (Nat.lt_ge_cases a b).
      * replace (Nat.min (S b) (S a)) with (S a) by lia. replace (Nat.min b (S a)) with (S a) by lia. replace (Nat.min (S b) a) with a by lia. replace (Nat.min b a) with a by lia. ring.
      * replace (Nat.min (S b) (S a)) with (S b) by lia. replace (Nat.min b (S a)) with b by lia. replace (Nat.min (S b) a) with (S b) by lia. replace (Nat.min b a) with b by lia. ring.
Qed.
Lemma fill_normal_ok n steps : (0 < n)%nat -> ordered n (fun x => x =? n - 1)%nat steps -> length steps = (n - 1)%nat ->
  exists M, orthogonal n M /\ forall z w, length z = n -> length w = n -> exists out, fill_normal n steps z w = Ok out /\ length out = n /\ forall a, (a < n)%nat -> nth a out 0 = sum n (fun i => M a i * nth i z 0).
Proof.
  intros Hn Ho Hl. set (sd := sqrt (time (n - 1))). assert (Esd : sd * sd = time (n - 1)) by (apply sqrt_sqrt, Rlt_le, time_pos).
  destruct (fill_steps_ok n steps 1 (fun x => x =? n - 1)%nat (fun _ m => sd * unit_ 0 m) Ho ltac:(lia)) as (c & Hc & Hf).
  - intros x m _ Hm. unfold unit_. destruct (Nat.eqb_spec m 0); [lia|]. ring.
  - intros x y Hx Hy. apply Nat.eqb_eq in Hx, Hy. subst x y. rewrite Nat.min_id. unfold dot. rewrite (sum_ext n _ (fun m => (sd * sd) * (unit_ 0 m * unit_ 0 m))) by (intros; ring). rewrite sum_scal.
    change (sum n (fun i => unit_ 0 i * unit_ 0 i)) with (dot n (unit_ 0) (unit_ 0)). rewrite dot_unit by lia. rewrite Esd. unfold unit_. cbn. ring.
  - exists (increments c). split; [now apply increments_orthogonal|]. intros z w Hz Hw. unfold fill_normal. rewrite (get_ok z 0 0) by lia. cbn [obind]. rewrite put_ok by lia. cbn [obind]. fold sd.
    destruct (Hf z (set_nth w (n - 1) (sd * nth 0 z 0)) Hz) as (w2 & E2 & L2 & A2).
    + split; [rewrite set_nth_length; exact Hw|]. intros x Hx Ex. apply Nat.eqb_eq in Ex. subst x. rewrite nth_set_same by lia. unfold dot. rewrite (sum_ext n _ (fun m => sd * (unit_ 0 m * nth m z 0))) by (intros; ring). rewrite sum_scal, sum_unit. apply Nat.ltb_lt in Hn. now rewrite Hn.
    + rewrite E2. cbn [obind]. destruct (variations_ok (n - 1) w2) as (out & E & L & H); [lia|]. exists out. split; [exact E|]. split; [lia|]. intros a Ha. rewrite H. destruct (Nat.leb_spec a (n - 1)); [|lia].
      assert (A3 : forall x, (x < n)%nat -> nth x w2 0 = dot n (c x) (fun i => nth i z 0)) by (intros x Hx; apply A2; [exact Hx|now apply Nat.ltb_lt]).
      destruct a as [|a]; cbn [increments]; rewrite !A3 by lia; [rewrite Rminus_0_r; reflexivity|]. rewrite <- dot_sub_l. reflexivity.
Qed.

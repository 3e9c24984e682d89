From Coq Require Import String Ascii ZArith List Bool Lia ZifyBool Sorted.
From Verif Require Import Base DateModel DateSpec DateCivil DateProofs StringModel StringSpec StringProofs
  HolidayModel HolidaySpec HolidayProofs HolidayRegistry HolidayRoll ScheduleModel ScheduleSpec.
Import ListNotations.
Open Scope Z_scope.
Ltac Zify.zify_post_hook ::= Z.div_mod_to_equations.

Lemma last_cons_cons (a b : Z) l : last (a :: b :: l) 0 = last (b :: l) 0.
Proof. reflexivity. Qed.
(** The loop returns the reversed chain it built in front of what it was given. *)
Lemma loop_fwd next maturity : forall fuel a acc, advances next a maturity -> a <= maturity -> maturity - a < Z.of_nat fuel ->
  exists body, generate_loop fuel next (fun p => maturity <? p) a (a :: acc) = Ok (rev body ++ acc) /\
    chain next body /\ hd 0 body = a /\ Forall (fun d => a <= d <= maturity) body /\
    (exists beyond, next (last body 0) = Ok beyond /\ maturity < beyond) /\ StronglySorted Z.lt body.
Proof.
  induction fuel as [|f IH]; intros a acc Hadv Ha Hf; [lia|].
  cbn [generate_loop]. destruct (Hadv a ltac:(lia)) as (d' & E & Hd). rewrite E. cbn [obind].
  destruct (maturity <? d') eqn:El.
  - exists [a]. repeat split; [constructor|constructor; [lia|constructor]| |constructor; constructor].
    exists d'. split; [exact E|lia].
  - destruct (IH d' (a :: acc)) as (body & E2 & Hc & Hh & Hfa & Hb & Hs); [intros x Hx; apply Hadv; lia|lia|lia|].
    exists (a :: body). rewrite E2. cbn [rev]. rewrite <- app_assoc. cbn [app].
    destruct body as [|b body]; [inversion Hc|]. cbn [hd] in Hh. subst b.
    split; [reflexivity|]. split; [constructor; assumption|]. split; [reflexivity|]. split.
    { constructor; [lia|]. eapply Forall_impl; [|exact Hfa]. cbn; lia. }
    split; [rewrite last_cons_cons; exact Hb|]. constructor; [exact Hs|]. eapply Forall_impl; [|exact Hfa]. cbn; lia.
Qed.
Lemma loop_bwd next start : forall fuel b acc, retreats next start b -> start <= b -> b - start < Z.of_nat fuel ->
  exists body, generate_loop fuel next (fun p => p <? start) b (b :: acc) = Ok (rev body ++ acc) /\
    chain next body /\ hd 0 body = b /\ Forall (fun d => start <= d <= b) body /\
    (exists beyond, next (last body 0) = Ok beyond /\ beyond < start) /\ StronglySorted Z.gt body.
Proof.
  induction fuel as [|f IH]; intros b acc Hadv Ha Hf; [lia|].
  cbn [generate_loop]. destruct (Hadv b ltac:(lia)) as (d' & E & Hd). rewrite E. cbn [obind].
  destruct (d' <? start) eqn:El.
  - exists [b]. repeat split; [constructor|constructor; [lia|constructor]| |constructor; constructor].
    exists d'. split; [exact E|lia].
  - destruct (IH d' (b :: acc)) as (body & E2 & Hc & Hh & Hfa & Hb & Hs); [intros x Hx; apply Hadv; lia|lia|lia|].
    exists (b :: body). rewrite E2. cbn [rev]. rewrite <- app_assoc. cbn [app].
    destruct body as [|x body]; [inversion Hc|]. cbn [hd] in Hh. subst x.
    split; [reflexivity|]. split; [constructor; assumption|]. split; [reflexivity|]. split.
    { constructor; [lia|]. eapply Forall_impl; [|exact Hfa]. cbn; lia. }
    split; [rewrite last_cons_cons; exact Hb|]. constructor; [exact Hs|]. eapply Forall_impl; [|exact Hfa]. cbn; lia.
Qed.

Lemma sorted_snoc l x : StronglySorted Z.lt l -> Forall (fun d => d < x) l -> StronglySorted Z.lt (l ++ [x]).
Proof.
  induction 1 as [|y l Hl IH Hf]; intros H; cbn [app]; [constructor; constructor|].
  inversion H; subst. constructor; [auto|]. apply Forall_app. split; [assumption|constructor; [assumption|constructor]].
Qed.
Lemma sorted_rev l : StronglySorted Z.gt l -> StronglySorted Z.lt (rev l).
Proof.
  induction 1 as [|y l Hl IH Hf]; cbn [rev]; [constructor|]. apply sorted_snoc; [assumption|].
  apply Forall_rev. eapply Forall_impl; [|exact Hf]. cbn; lia.
Qed.
Lemma last_app_one (l : list Z) x : last (l ++ [x]) 0 = x.
Proof. apply last_last. Qed.
Lemma rev_last (l : list Z) : l <> [] -> exists r, rev l = last l 0 :: r.
Proof.
  intros H. exists (rev (removelast l)). pattern l at 1. rewrite (app_removelast_last 0 H). now rewrite rev_app_distr.
Qed.
Lemma last_rev (l : list Z) : last (rev l) 0 = hd 0 l.
Proof. destruct l as [|x l]; [reflexivity|]. cbn [rev hd]. apply last_last. Qed.
Lemma hd_rev (l : list Z) : hd 0 (rev l) = last l 0.
Proof. destruct l as [|x l]; [reflexivity|]. destruct (rev_last (x :: l) ltac:(discriminate)) as (r & ->). reflexivity. Qed.
Lemma last_In (l : list Z) : l <> [] -> In (last l 0) l.
Proof. intros H. pattern l at 2. rewrite (app_removelast_last 0 H). apply in_or_app. right. left. reflexivity. Qed.

Lemma generate_forward tenor fuel start maturity : start <= maturity -> advances (tenor true) start maturity ->
  maturity - start < Z.of_nat fuel ->
  exists l, date_generate fuel start maturity tenor Forward = Ok l /\ forward_schedule (tenor true) start maturity l /\
    StronglySorted Z.lt l /\ hd 0 l = start /\ last l 0 = maturity /\ Forall (fun d => start <= d <= maturity) l.
Proof.
  intros Hle Hadv Hf. unfold date_generate.
  destruct (loop_fwd (tenor true) maturity fuel start [] Hadv Hle Hf) as (body & E & Hc & Hh & Hfa & Hb & Hs).
  rewrite E. cbn [obind]. rewrite app_nil_r.
  assert (Hne : body <> []) by (intros ->; inversion Hc).
  destruct (rev_last body Hne) as (r & Er). unfold close_with. rewrite Er.
  assert (Hlast : start <= last body 0 <= maturity) by (rewrite Forall_forall in Hfa; apply Hfa, last_In, Hne).
  destruct (last body 0 =? maturity) eqn:El.
  - assert (last body 0 = maturity) by lia. exists body. rewrite <- Er, rev_involutive. split; [reflexivity|]. split.
    { exists body. repeat split; auto. }
    repeat split; auto.
  - assert (Hneq : last body 0 <> maturity) by lia. exists (body ++ [maturity]). rewrite <- Er. cbn [rev]. rewrite rev_involutive. split; [reflexivity|]. split.
    { exists body. repeat split; auto. }
    split; [|split; [|split]].
    + apply sorted_snoc; [assumption|]. rewrite Forall_forall in *. intros x Hx. specialize (Hfa x Hx).
      destruct (Z.eq_dec x maturity) as [->|]; [|lia]. exfalso. apply Hneq.
      (* maturity is in the body: it must be the last *)
      clear - Hs Hx Hfa Hne Hlast. rewrite (app_removelast_last 0 Hne) in Hs, Hx. apply in_app_or in Hx as [Hx|[Hx|[]]]; [|exact Hx].
      exfalso. clear Hne Hfa. induction (removelast body) as [|z rest IH]; [destruct Hx|]. cbn [app] in Hs. inversion Hs; subst.
      destruct Hx as [->|Hx]; [|auto]. rewrite Forall_forall in H2. specialize (H2 (last body 0) ltac:(apply in_or_app; right; left; reflexivity)). lia.
    + destruct body; [congruence|]. exact Hh.
    + apply last_last.
    + apply Forall_app. split; [assumption|]. constructor; [lia|constructor].
Qed.
Lemma generate_backward tenor fuel start maturity : start <= maturity -> retreats (tenor false) start maturity ->
  maturity - start < Z.of_nat fuel ->
  exists l, date_generate fuel start maturity tenor Backward = Ok l /\ backward_schedule (tenor false) start maturity l /\
    StronglySorted Z.lt l /\ hd 0 l = start /\ last l 0 = maturity /\ Forall (fun d => start <= d <= maturity) l.
Proof.
  intros Hle Hadv Hf. unfold date_generate.
  destruct (loop_bwd (tenor false) start fuel maturity [] Hadv Hle Hf) as (body & E & Hc & Hh & Hfa & Hb & Hs).
  rewrite E. cbn [obind]. rewrite app_nil_r.
  assert (Hne : body <> []) by (intros ->; inversion Hc).
  destruct (rev_last body Hne) as (r & Er). unfold close_with. rewrite Er.
  assert (Hlast : start <= last body 0 <= maturity) by (rewrite Forall_forall in Hfa; apply Hfa, last_In, Hne).
  destruct (last body 0 =? start) eqn:El.
  - assert (last body 0 = start) by lia. exists (rev body). rewrite Er. split; [reflexivity|]. rewrite <- Er. split.
    { exists body. repeat split; auto. }
    split; [apply sorted_rev; assumption|]. split; [rewrite hd_rev; assumption|]. split; [rewrite last_rev; assumption|]. now apply Forall_rev.
  - assert (Hneq : last body 0 <> start) by lia. exists (start :: rev body). rewrite Er. split; [reflexivity|]. rewrite <- Er. split.
    { exists body. repeat split; auto. }
    split; [|split; [reflexivity|split]].
    + constructor; [apply sorted_rev; assumption|]. apply Forall_rev. rewrite Forall_forall in *. intros x Hx. specialize (Hfa x Hx).
      destruct (Z.eq_dec x start) as [->|]; [|lia]. exfalso. apply Hneq.
      clear - Hs Hx Hfa Hne Hlast. rewrite (app_removelast_last 0 Hne) in Hs, Hx. apply in_app_or in Hx as [Hx|[Hx|[]]]; [|exact Hx].
      exfalso. clear Hne Hfa. induction (removelast body) as [|z rest IH]; [destruct Hx|]. cbn [app] in Hs. inversion Hs; subst.
      destruct Hx as [->|Hx]; [|auto]. rewrite Forall_forall in H2. specialize (H2 (last body 0) ltac:(apply in_or_app; right; left; reflexivity)). lia.
    + rewrite <- (last_rev body) in Hh. destruct (rev body) as [|z l] eqn:Erb; [discriminate|]. rewrite last_cons_cons. exact Hh.
    + constructor; [lia|]. now apply Forall_rev.
Qed.

(** * When it never ends *)
Lemma loop_diverges (P : Z -> Prop) next past : (forall d, P d -> exists d', next d = Ok d' /\ P d' /\ past d' = false) ->
  forall fuel d acc, P d -> generate_loop fuel next past d acc = OutOfFuel.
Proof.
  intros H. induction fuel as [|f IH]; intros d acc Hd; [reflexivity|]. cbn [generate_loop].
  destruct (H d Hd) as (d' & -> & Hd' & Hp). cbn [obind]. rewrite Hp. apply IH, Hd'.
Qed.
Lemma forward_diverges (P : Z -> Prop) tenor start maturity : P start ->
  (forall d, P d -> exists d', tenor true d = Ok d' /\ P d' /\ d' <= maturity) ->
  forall fuel, date_generate fuel start maturity tenor Forward = OutOfFuel.
Proof.
  intros H0 H fuel. unfold date_generate. rewrite (loop_diverges P); [reflexivity| |assumption].
  intros d Hd. destruct (H d Hd) as (d' & E & Hp & Hl). exists d'. repeat split; auto. lia.
Qed.

(** * Tenors that advance *)
Lemma adjusted_step_fwd sz n h d r : good h -> 0 <= r < 65536 ->
  (hols_neqb h hols_none = true -> exists x, r <= x < 65536 /\ business h x) ->
  (forall h', step sz d true n h' = if hols_neqb h' hols_none then next_bus h' r else Ok r) ->
  exists r', step sz d true n h = Ok r' /\ r <= r'.
Proof.
  intros Hg Hr Hb E. rewrite E. destruct (hols_neqb h hols_none) eqn:En; [|exists r; split; [reflexivity|lia]].
  destruct (next_bus_spec h r Hg Hr (Hb eq_refl)) as (x & Ex & Hx & _). exists x. split; [exact Ex|lia].
Qed.
Lemma mul_sign n s : n * s * 1 = n * s. Proof. lia. Qed.

(** calendar days and weeks *)
Lemma days_advance n h a b : good h -> 1 <= n -> 0 <= a -> b + n < 65536 ->
  (hols_neqb h hols_none = true -> exists x, b + n <= x < 65536 /\ business h x) ->
  advances (apply_inc (Multi n SCD h) true) a b.
Proof.
  intros Hg Hn Ha Hb Hx d Hd. cbn [apply_inc].
  destruct (adjusted_step_fwd SCD n h d (d + n) Hg ltac:(lia)) as (r & E & Hr).
  - intros Hh. destruct (Hx Hh) as (x & H1 & H2). exists x. split; [lia|assumption].
  - intros h'. unfold step. cbn [obind]. replace (n * 1) with n by lia. rewrite add_days_in by lia. reflexivity.
  - exists r. split; [exact E|lia].
Qed.
Lemma weeks_advance n h a b : good h -> 1 <= n -> 0 <= a -> b + 7 * n < 65536 ->
  (hols_neqb h hols_none = true -> exists x, b + 7 * n <= x < 65536 /\ business h x) ->
  advances (apply_inc (Multi n SW h) true) a b.
Proof.
  intros Hg Hn Ha Hb Hx d Hd. cbn [apply_inc].
  destruct (adjusted_step_fwd SW n h d (d + 7 * n) Hg ltac:(lia)) as (r & E & Hr).
  - intros Hh. destruct (Hx Hh) as (x & H1 & H2). exists x. split; [lia|assumption].
  - intros h'. unfold step. replace (int_range (7 * n)) with true by (unfold int_range; lia). cbn [obind].
    replace (7 * n * 1) with (7 * n) by lia. rewrite add_days_in by lia. reflexivity.
  - exists r. split; [exact E|lia].
Qed.
Lemma serial_range y m d : 0 <= mk_date y m d < 65536.
Proof. unfold mk_date, serial_from_ymd, u16. cbv zeta. destruct (_ =? _); [apply Z.mod_pos_bound|]; lia. Qed.
Lemma add_months_range s n f : 0 <= add_months s n f < 65536.
Proof.
  unfold add_months. cbv zeta. destruct (if 12 <? _ then _ else _) as [a b]. destruct (if b <? 1 then _ else _) as [y m]. apply serial_range.
Qed.
Lemma month_idx_mono a b y m d y' m' d' : 1 <= a <= b -> b < 65536 -> ymd a = (y, m, d) -> ymd b = (y', m', d') ->
  month_index y m <= month_index y' m'.
Proof.
  intros H Hb Ea Eb. pose proof (order_agrees b a ltac:(lia) ltac:(lia)) as [Ho _]. rewrite Ea, Eb in Ho.
  pose proof (ymd_valid a ltac:(lia)) as Va. pose proof (ymd_valid b ltac:(lia)) as Vb. rewrite Ea in Va. rewrite Eb in Vb.
  apply valid_iff in Va, Vb. unfold date_ltb in Ho. unfold ymd_ltb in Ho. unfold month_index. lia.
Qed.
Lemma month_order a b y m d y' m' d' : 1 <= a < 65536 -> 1 <= b < 65536 -> ymd a = (y, m, d) -> ymd b = (y', m', d') ->
  month_index y m < month_index y' m' -> a < b.
Proof.
  intros Ha Hb Ea Eb Hi. destruct (Z_lt_le_dec a b) as [|L]; [assumption|].
  pose proof (month_idx_mono b a y' m' d' y m d ltac:(lia) ltac:(lia) Eb Ea). lia.
Qed.
Lemma add_months_move s n y m d : 1 <= s < 65536 -> ymd s = (y, m, d) -> good_months (month_index y m + n) (month_index y m + n) ->
  exists y' m' d', ymd (add_months s n false) = (y', m', d') /\ month_index y' m' = month_index y m + n /\ 1 <= add_months s n false < 65536.
Proof.
  intros Hs E Hg. set (i := month_index y m + n) in *.
  set (y' := i / 12). set (m' := i mod 12 + 1).
  assert (Hm' : 1 <= m' <= 12) by (unfold m'; lia). assert (Hi : month_index y' m' = i) by (unfold month_index, y', m'; lia).
  pose proof (Hg y' m' Hm' ltac:(lia)) as Hgm.
  pose proof (add_months_spec s n false y m d y' m' Hs E Hi Hm' Hgm ltac:(discriminate)) as Em. cbn [andb] in Em.
  exists y', m'. eexists. split; [exact Em|]. split; [exact Hi|].
  pose proof (add_months_range s n false) as Hr. destruct (Z.eq_dec (add_months s n false) 0) as [Z0|]; [|lia].
  exfalso. rewrite Z0 in Em. change (ymd 0) with (1969, 12, 31) in Em. injection Em as Ey Em _. unfold good_month, month_index in Hgm. lia.
Qed.
Lemma months_advance n k h a b y1 m1 d1 y2 m2 d2 : good h -> 1 <= n -> 1 <= a <= b -> b < 65536 ->
  ymd a = (y1, m1, d1) -> ymd b = (y2, m2, d2) -> k = 1 \/ k = 12 -> n * k <= 3000 -> good_months (month_index y1 m1) (month_index y2 m2 + n * k) ->
  (hols_neqb h hols_none = true -> forall d, a <= d <= b -> exists x, add_months d (n * k) false <= x < 65536 /\ business h x) ->
  advances (apply_inc (Multi n (if k =? 1 then SM else SY) h) true) a b.
Proof.
  intros Hg Hn Ha Hb E1 E2 Hk Hnk Hgm Hx d Hd. cbn [apply_inc]. destruct (ymd d) as [[y m] dd] eqn:Ed.
  pose proof (month_idx_mono a d _ _ _ _ _ _ ltac:(lia) ltac:(lia) E1 Ed) as L1.
  pose proof (month_idx_mono d b _ _ _ _ _ _ ltac:(lia) ltac:(lia) Ed E2) as L2.
  destruct (add_months_move d (n * k) y m dd ltac:(lia) Ed) as (y' & m' & d' & Em & Hi & Hr).
  { intros yy mm Hmm Hii. apply Hgm; [assumption|]. nia. }
  assert (Hlt : d < add_months d (n * k) false) by (eapply month_order; [lia|lia|exact Ed|exact Em|]; nia).
  destruct (adjusted_step_fwd (if k =? 1 then SM else SY) n h d (add_months d (n * k) false) Hg ltac:(lia)) as (r & E & Hrr).
  - intros Hh. apply (Hx Hh d Hd).
  - intros h'. destruct Hk as [-> | ->]; unfold step; cbn [Z.eqb Pos.eqb].
    + cbn [obind]. reflexivity.
    + replace (int_range (12 * n)) with true by (unfold int_range; lia). cbn [obind]. replace (12 * n * 1) with (n * 12) by lia. reflexivity.
  - exists r. split; [exact E|lia].
Qed.
(** backward, calendar-less *)
Lemma days_retreat n a b : 1 <= n -> n <= a -> b < 65536 -> retreats (apply_inc (Multi n SCD hols_none) false) a b.
Proof.
  intros Hn Ha Hb d Hd. cbn [apply_inc]. unfold step. cbn [obind]. change (hols_neqb hols_none hols_none) with false. cbv iota.
  eexists. split; [reflexivity|]. replace (n * -1) with (- n) by lia. rewrite add_days_in by lia. lia.
Qed.
Lemma weeks_retreat n a b : 1 <= n -> 7 * n <= a -> b < 65536 -> retreats (apply_inc (Multi n SW hols_none) false) a b.
Proof.
  intros Hn Ha Hb d Hd. cbn [apply_inc]. unfold step. replace (int_range (7 * n)) with true by (unfold int_range; lia).
  cbn [obind]. change (hols_neqb hols_none hols_none) with false. cbv iota.
  eexists. split; [reflexivity|]. replace (7 * n * -1) with (- (7 * n)) by lia. rewrite add_days_in by lia. lia.
Qed.
Lemma months_retreat n k a b y1 m1 d1 y2 m2 d2 : 1 <= n -> 1 <= a <= b -> b < 65536 ->
  ymd a = (y1, m1, d1) -> ymd b = (y2, m2, d2) -> k = 1 \/ k = 12 -> n * k <= 3000 -> good_months (month_index y1 m1 - n * k) (month_index y2 m2) ->
  retreats (apply_inc (Multi n (if k =? 1 then SM else SY) hols_none) false) a b.
Proof.
  intros Hn Ha Hb E1 E2 Hk Hnk Hgm d Hd. cbn [apply_inc]. destruct (ymd d) as [[y m] dd] eqn:Ed.
  pose proof (month_idx_mono a d _ _ _ _ _ _ ltac:(lia) ltac:(lia) E1 Ed) as L1.
  pose proof (month_idx_mono d b _ _ _ _ _ _ ltac:(lia) ltac:(lia) Ed E2) as L2.
  destruct (add_months_move d (- (n * k)) y m dd ltac:(lia) Ed) as (y' & m' & d' & Em & Hi & Hr).
  { intros yy mm Hmm Hii. apply Hgm; [assumption|]. nia. }
  assert (Hlt : add_months d (- (n * k)) false < d) by (eapply month_order; [lia|lia|exact Em|exact Ed|]; nia).
  exists (add_months d (- (n * k)) false). split; [|exact Hlt].
  destruct Hk as [-> | ->]; unfold step; cbn [Z.eqb Pos.eqb].
  - cbn [obind]. change (hols_neqb hols_none hols_none) with false. cbv iota. replace (n * -1) with (- (n * 1)) by lia. reflexivity.
  - replace (int_range (12 * n)) with true by (unfold int_range; lia). cbn [obind]. change (hols_neqb hols_none hols_none) with false. cbv iota.
    replace (12 * n * -1) with (- (n * 12)) by lia. reflexivity.
Qed.

(** * Adjustment *)
Lemma map_outcome_next h : good h -> forall l, Forall (fun d => 0 <= d < 65536) l ->
  (forall d, In d l -> exists x, d <= x < 65536 /\ business h x) ->
  exists r, map_outcome (next_bus h) l = Ok r /\
    Forall2 (fun p d => p <= d < 65536 /\ business h d /\ forall x, p <= x < d -> ~ business h x) l r.
Proof.
  intros Hg. induction l as [|x l IH]; intros Hl Hx; [exists []; split; [reflexivity|constructor]|].
  inversion Hl; subst. destruct (next_bus_spec h x Hg ltac:(assumption) (Hx x (or_introl eq_refl))) as (r & Er & H3 & H4 & H5).
  destruct IH as (rs & Ers & Hrs); [assumption|intros d Hd; apply Hx; right; assumption|].
  exists (r :: rs). cbn [map_outcome]. rewrite Er. cbn [obind]. rewrite Ers. cbn [obind]. split; [reflexivity|].
  constructor; [split; [lia|split; [assumption|assumption]]|assumption].
Qed.
Lemma F2_In_r {A B} (R : A -> B -> Prop) l r y : Forall2 R l r -> In y r -> exists x, In x l /\ R x y.
Proof. induction 1 as [|a b l r H1 H2 IH]; [intros []|]. intros [<-|H]; [exists a; split; [left; reflexivity|assumption]|]. destruct (IH H) as (x & Hx & Hr). exists x. split; [right; assumption|assumption]. Qed.
Lemma F2_In_l {A B} (R : A -> B -> Prop) l r x : Forall2 R l r -> In x l -> exists y, In y r /\ R x y.
Proof. induction 1 as [|a b l r H1 H2 IH]; [intros []|]. intros [<-|H]; [exists b; split; [left; reflexivity|assumption]|]. destruct (IH H) as (y & Hy & Hr). exists y. split; [right; assumption|assumption]. Qed.
Lemma rolls_mono h p q d e : p <= q -> rolls_to h p d -> rolls_to h q e -> d <= e.
Proof.
  intros Hpq (H1 & H2 & H3) (H4 & H5 & H6). destruct (Z_lt_le_dec e d) as [L|]; [|lia]. exfalso. apply (H3 e); [lia|assumption].
Qed.
Lemma rolls_fun h p d e : rolls_to h p d -> rolls_to h p e -> d = e.
Proof. intros H1 H2. pose proof (rolls_mono h p p d e ltac:(lia) H1 H2). pose proof (rolls_mono h p p e d ltac:(lia) H2 H1). lia. Qed.
Lemma make_following fuel start maturity h tenor g l : good h -> Forall (fun d => 0 <= d < 65536) l -> l <> [] ->
  date_generate fuel start maturity tenor g = Ok l ->
  (forall d, In d l -> exists x, d <= x < 65536 /\ business h x) ->
  exists s, make_schedule fuel start maturity h tenor g Following = Ok s /\ StronglySorted Z.lt s /\
    (forall d, In d s <-> exists p, In p l /\ rolls_to h p d).
Proof.
  intros Hg Hl Hne E Hx. unfold make_schedule. rewrite E. cbn [obind adjust].
  destruct (map_outcome_next h Hg l Hl Hx) as (r & Er & Hr).
  change (map_outcome (adjust Following h) l) with (map_outcome (next_bus h) l). rewrite Er. cbn [obind].
  eexists. split; [reflexivity|]. split; [apply uniqueZ_sorted|]. intros d. rewrite uniqueZ_In. split.
  - intros Hd. exact (F2_In_r _ _ _ _ Hr Hd).
  - intros (p & Hp & Hd). destruct (F2_In_l _ _ _ _ Hr Hp) as (e & He & Hpe). rewrite (rolls_fun _ _ _ _ Hd Hpe). exact He.
Qed.
Lemma sorted_ends (s : list Z) a b : StronglySorted Z.lt s -> In a s -> In b s -> (forall x, In x s -> a <= x <= b) -> hd 0 s = a /\ last s 0 = b.
Proof.
  intros Hs Ha Hb Hall. destruct s as [|x s]; [destruct Ha|]. split.
  - cbn [hd]. inversion Hs; subst. pose proof (Hall x (or_introl eq_refl)). destruct Ha as [->|Ha]; [reflexivity|].
    rewrite Forall_forall in H2. specialize (H2 a Ha). lia.
  - set (l := x :: s) in *. assert (Hne : l <> []) by discriminate. clearbody l. clear x s.
    pose proof (Hall _ (last_In l Hne)) as H1. rewrite (app_removelast_last 0 Hne) in Hs, Hb.
    apply in_app_or in Hb as [Hb|[Hb|[]]]; [|exact Hb]. exfalso.
    clear Hall Hne Ha. induction (removelast l) as [|z rest IH]; [destruct Hb|]. cbn [app] in Hs. inversion Hs; subst.
    destruct Hb as [->|Hb]; [|auto]. rewrite Forall_forall in H3. specialize (H3 (last l 0) ltac:(apply in_or_app; right; left; reflexivity)). lia.
Qed.
Lemma following_ends l s h a b p q : StronglySorted Z.lt l -> hd 0 l = p -> last l 0 = q -> l <> [] ->
  StronglySorted Z.lt s -> (forall d, In d s <-> exists x, In x l /\ rolls_to h x d) -> rolls_to h p a -> rolls_to h q b ->
  hd 0 s = a /\ last s 0 = b.
Proof.
  intros Hl Hp Hq Hne Hs Hin Ha Hb.
  assert (Hlp : In p l) by (destruct l; [congruence|]; left; exact Hp).
  assert (Hlq : In q l) by (rewrite <- Hq; apply last_In, Hne).
  assert (Hrange : forall x, In x l -> p <= x <= q).
  { intros x Hx. destruct l as [|z l0]; [destruct Hx|]. cbn [hd] in Hp. subst z. split.
    - destruct Hx as [->|Hx]; [lia|]. inversion Hl; subst. rewrite Forall_forall in H2. specialize (H2 x Hx). lia.
    - set (l := p :: l0) in *. clearbody l. rewrite (app_removelast_last 0 Hne) in Hl, Hx. rewrite Hq in *.
      apply in_app_or in Hx as [Hx|[Hx|[]]]; [|lia]. clear - Hl Hx. induction (removelast l) as [|z rest IH]; [destruct Hx|].
      cbn [app] in Hl. inversion Hl; subst. destruct Hx as [->|Hx]; [|auto]. rewrite Forall_forall in H2.
      specialize (H2 q ltac:(apply in_or_app; right; left; reflexivity)). lia. }
  apply sorted_ends; [assumption|apply Hin; eauto|apply Hin; eauto|].
  intros x Hx. apply Hin in Hx as (y & Hy & Hr). split; [apply (rolls_mono h p y); [apply Hrange; assumption|assumption|assumption]|].
  apply (rolls_mono h y q); [apply Hrange; assumption|assumption|assumption].
Qed.
Lemma make_unadjusted fuel start maturity h tenor g l : date_generate fuel start maturity tenor g = Ok l -> StronglySorted Z.lt l ->
  make_schedule fuel start maturity h tenor g Unadjusted = Ok l.
Proof.
  intros E Hs. unfold make_schedule. rewrite E. cbn [obind].
  assert (Em : map_outcome (adjust Unadjusted h) l = Ok l) by (clear; induction l as [|x l IH]; [reflexivity|]; cbn [map_outcome adjust obind]; rewrite IH; reflexivity).
  rewrite Em. cbn [obind]. f_equal. clear - Hs. unfold uniqueZ, unique.
  assert (Hsort : sort Z.ltb l = l).
  { induction Hs as [|x l Hl IH Hf]; [reflexivity|]. cbn [sort]. rewrite IH. destruct l as [|y l]; [reflexivity|]. cbn [insert].
    inversion Hf; subst. now replace (y <? x) with false by lia. }
  rewrite Hsort. induction Hs as [|x l Hl IH Hf]; [reflexivity|]. cbn [dedup].
  assert (Hsl : sort Z.ltb l = l).
  { clear - Hl. induction Hl as [|x l Hl IH Hf]; [reflexivity|]. cbn [sort]. rewrite IH. destruct l as [|y l]; [reflexivity|]. cbn [insert].
    inversion Hf; subst. now replace (y <? x) with false by lia. }
  rewrite (IH Hsl). destruct l as [|y l]; [reflexivity|]. inversion Hf; subst. now replace (x =? y) with false by lia.
Qed.

(** * Text of increments *)
Lemma read_enum_hit {A} (table : list (string * A)) s t n v : ascii_only s -> strip s t -> In (n, v) table -> same_up_to_case t (lit n) ->
  (forall n' v', In (n', v') table -> same_up_to_case (lit n') (lit n) -> v' = v) -> read_enum table s = Ok v.
Proof.
  intros Ha Hs Hin Hsame. induction table as [|[m w] table IH]; [destruct Hin|]. intros Huniq. cbn [read_enum].
  destruct (equivalent_spec s (lit m) Ha) as (b & t' & E & Hs' & Hb). rewrite E. cbn [obind].
  pose proof (strip_fun _ _ _ Hs Hs') as <-. destruct b.
  - f_equal. apply (Huniq m w); [left; reflexivity|]. eapply same_trans; [apply same_sym, Hb; reflexivity|exact Hsame].
  - destruct Hin as [Hin|Hin]; [injection Hin as -> ->; exfalso; apply Hb in Hsame; discriminate|].
    apply IH; [assumption|]. intros n' v' H. apply Huniq. right. exact H.
Qed.
Lemma read_enum_miss {A} (table : list (string * A)) s t : ascii_only s -> strip s t ->
  (forall n v, In (n, v) table -> ~ same_up_to_case t (lit n)) -> read_enum table s = Throw.
Proof.
  intros Ha Hs. induction table as [|[m w] table IH]; intros H; [reflexivity|]. cbn [read_enum].
  destruct (equivalent_spec s (lit m) Ha) as (b & t' & E & Hs' & Hb). rewrite E. cbn [obind].
  pose proof (strip_fun _ _ _ Hs Hs') as <-. destruct b; [exfalso; apply (H m w); [left; reflexivity|apply Hb; reflexivity]|].
  apply IH. intros n v Hn. apply (H n v). right. exact Hn.
Qed.
Definition table_distinct {A} (eqb : A -> A -> bool) (table : list (string * A)) : bool :=
  forallb (fun p => forallb (fun q => negb (ci_eqb (lit (fst p)) (lit (fst q))) || eqb (snd p) (snd q)) table) table.
Lemma table_distinct_ok {A} (eqb : A -> A -> bool) table : (forall a b, eqb a b = true -> a = b) -> table_distinct eqb table = true ->
  forall n v n' v', In (n, v) table -> In (n', v') table -> same_up_to_case (lit n') (lit n) -> v' = v.
Proof.
  intros He H n v n' v' H1 H2 H3. unfold table_distinct in H. rewrite forallb_forall in H. specialize (H _ H2). cbn beta in H.
  rewrite forallb_forall in H. specialize (H _ H1). cbn [fst snd] in H. apply ci_eqb_iff in H3. rewrite H3 in H. cbn in H. auto.
Qed.
Definition sz_eqb (a b : step_size) : bool := match a, b with SY, SY | SM, SM | SW, SW | SBD, SBD | SCD, SCD => true | _, _ => false end.
Definition sp_eqb (a b : special) : bool := match a, b with IMM, IMM | IMM1, IMM1 | CDS, CDS | EOM, EOM => true | _, _ => false end.
Lemma names_unique n v n' v' : In (n, v) step_size_names -> In (n', v') step_size_names -> same_up_to_case (lit n') (lit n) -> v' = v.
Proof. apply (table_distinct_ok sz_eqb); [intros [] []; cbn; congruence|vm_compute; reflexivity]. Qed.
Lemma specials_unique n v n' v' : In (n, v) special_names -> In (n', v') special_names -> same_up_to_case (lit n') (lit n) -> v' = v.
Proof. apply (table_distinct_ok sp_eqb); [intros [] []; cbn; congruence|vm_compute; reflexivity]. Qed.

Lemma strip_chars s t c : strip s t -> In c s -> ignorable c \/ In c t.
Proof. induction 1 as [|x s t Hx Hs IH|x s t Hx Hs IH]; [intros []| |]; intros [<-|H]; cbn; auto; destruct (IH H); auto. Qed.
Lemma same_chars a b c : same_up_to_case a b -> In c a -> exists d, In d b /\ same_letter c d.
Proof. intros H. exact (F2_In_l _ _ _ _ H). Qed.
Definition letters_only (s : str) : bool := forallb (fun c => (65 <=? code c) && (code c <=? 90)) s.
Lemma unit_chars s t n : strip s t -> same_up_to_case t (lit n) -> letters_only (lit n) = true -> ascii_only s ->
  Forall (fun c => is_dig c = false /\ c <> ";"%char /\ c <> "&"%char) s.
Proof.
  intros Hs Hn Hl Ha. apply Forall_forall. intros c Hc. unfold ascii_only in Ha. rewrite Forall_forall in Ha. specialize (Ha c Hc). cbn beta in Ha.
  destruct (strip_chars _ _ _ Hs Hc) as [Hi|Hi].
  - destruct Hi as [->|[->| ->]]; vm_compute; repeat split; congruence.
  - destruct (same_chars _ _ _ Hn Hi) as (d & Hd & Hsame). unfold letters_only in Hl. rewrite forallb_forall in Hl. specialize (Hl d Hd). cbn beta in Hl.
    pose proof (code_range c). pose proof (code_range d). unfold is_dig. unfold same_letter in Hsame.
    repeat split; [lia| |]; intros ->; change (code ";"%char) with 59 in *; change (code "&"%char) with 38 in *; lia.
Qed.
Lemma span_dig_app num rest : Forall (fun c => is_dig c = true) num -> match rest with [] => True | c :: _ => is_dig c = false end ->
  span_dig (num ++ rest) = (num, rest).
Proof.
  intros Hn Hr. induction Hn as [|c num Hc Hn IH]; cbn [app span_dig].
  - destruct rest as [|c r]; [reflexivity|]. cbn [span_dig]. now rewrite Hr.
  - now rewrite Hc, IH.
Qed.
Lemma dec_val_app s c : forall acc, dec_val acc (s ++ [c]) = 10 * dec_val acc s + (code c - 48).
Proof. induction s as [|x s IH]; intros acc; [reflexivity|]. cbn [app dec_val]. apply IH. Qed.
Lemma decimal_val s v : decimal s v -> dec_val 0 s = v /\ Forall (fun c => is_dig c = true) s.
Proof.
  induction 1 as [|s v c Hs [IH1 IH2] Hc]; [split; [reflexivity|constructor]|]. rewrite dec_val_app, IH1. split; [reflexivity|].
  apply Forall_app. split; [assumption|]. constructor; [unfold is_dig; lia|constructor].
Qed.
Lemma existsb_none (c : ascii) s : Forall (fun x => x <> c) s -> existsb (Ascii.eqb c) s = false.
Proof.
  induction 1 as [|x s Hx Hs IH]; [reflexivity|]. cbn [existsb]. rewrite IH. destruct (Ascii.eqb c x) eqn:E; [|reflexivity].
  apply Ascii.eqb_eq in E. congruence.
Qed.
Lemma dig_plain c : is_dig c = true -> c <> ";"%char /\ c <> "&"%char.
Proof. intros H. split; intros ->; discriminate H. Qed.
Lemma names_letters n v : In (n, v) step_size_names -> letters_only (lit n) = true /\ lit n <> [].
Proof. cbn. intros H. repeat (destruct H as [H|H]; [injection H as <- <-; split; [reflexivity|discriminate]|]). destruct H. Qed.
Lemma parse_steps reg combos num n unit t name sz : decimal num n -> num <> [] -> n <= 2147483647 ->
  ascii_only unit -> strip unit t -> In (name, sz) step_size_names -> same_up_to_case t (lit name) ->
  parse_increment reg combos (num ++ unit) = Ok (Multi n sz hols_none).
Proof.
  intros Hd Hne Hn Ha Hs Hin Hsame. destruct (decimal_val _ _ Hd) as [Hv Hdig]. destruct (names_letters _ _ Hin) as [Hlet Hnn].
  pose proof (unit_chars _ _ _ Hs Hsame Hlet Ha) as Hu.
  assert (Hune : unit <> []) by (intros ->; inversion Hs; subst; inversion Hsame; congruence).
  unfold parse_increment. rewrite existsb_none.
  2:{ apply Forall_app. split; [eapply Forall_impl; [|exact Hdig]; intros c Hc; apply (dig_plain c Hc)|eapply Forall_impl; [|exact Hu]; cbn beta; tauto]. }
  unfold parse_single. rewrite span_dig_app; [|assumption|destruct unit; [exact I|]; inversion Hu; tauto].
  destruct num as [|c0 num]; [congruence|]. cbn [app].
  rewrite cut_none. 2:{ rewrite Forall_forall in Hu. intros H. destruct (Hu _ H) as (_ & H' & _). congruence. }
  cbn [obind]. unfold to_int. rewrite Hv. replace (n <=? 2147483647) with true by lia. cbn [obind].
  destruct unit as [|u unit]; [congruence|]. unfold read_step_size.
  rewrite (read_enum_hit step_size_names (u :: unit) t name sz Ha Hs Hin Hsame); [reflexivity|].
  intros n' v' H1 H2. exact (names_unique _ _ _ _ Hin H1 H2).
Qed.
Lemma parse_special reg combos src t name sp : ascii_only src -> strip src t -> In (name, sp) special_names -> same_up_to_case t (lit name) ->
  parse_increment reg combos src = Ok (Special sp).
Proof.
  intros Ha Hs Hin Hsame.
  assert (Hch : Forall (fun c => c <> "&"%char) src /\ exists c r, src = c :: r /\ is_dig c = false).
  { assert (Hl : exists c0 r0, lit name = c0 :: r0 /\ 65 <= code c0 <= 90 /\ Forall (fun c => 48 <= code c <= 90) r0).
    { cbn in Hin. repeat (destruct Hin as [Hin|Hin]; [injection Hin as <- <-; eexists; eexists; split; [reflexivity|]; split; [vm_compute; split; discriminate|]; repeat constructor; vm_compute; discriminate|]). destruct Hin. }
    destruct Hl as (c0 & r0 & El & Hc0 & Hr0). split.
    - apply Forall_forall. intros c Hc ->. destruct (strip_chars _ _ _ Hs Hc) as [Hi|Hi]; [destruct Hi as [Hi|[Hi|Hi]]; discriminate|].
      destruct (same_chars _ _ _ Hsame Hi) as (d & Hd & Hl). rewrite El in Hd. unfold same_letter in Hl. change (code "&"%char) with 38 in Hl.
      assert (48 <= code d) by (destruct Hd as [<-|Hd]; [lia|rewrite Forall_forall in Hr0; specialize (Hr0 d Hd); cbn beta in Hr0; lia]).
      pose proof (code_range d). lia.
    - rewrite El in Hsame. destruct src as [|c r]; [inversion Hs; subst; inversion Hsame|]. exists c, r. split; [reflexivity|].
      inversion Hs; subst.
      + destruct H1 as [->|[->| ->]]; reflexivity.
      + inversion Hsame; subst. pose proof (code_range c). pose proof (code_range c0). unfold ascii_only in Ha. inversion Ha; subst. unfold is_dig, same_letter in *. lia. }
  destruct Hch as (Hamp & c & r & -> & Hdig). unfold parse_increment. rewrite existsb_none by assumption.
  unfold parse_single. cbn [span_dig]. rewrite Hdig. unfold read_special.
  rewrite (read_enum_hit special_names (c :: r) t name sp Ha Hs Hin Hsame); [reflexivity|].
  intros n' v' H1 H2. exact (specials_unique _ _ _ _ Hin H1 H2).
Qed.

(** Proofs about n-dimensional arrays and reports. *)
From Coq Require Import List Arith Bool Lia.
From Verif Require Import Base Vec OMap StringModel StringProofs MatrixModel MatrixProofs NdModel NdSpec.
Import ListNotations.

(** row-major addresses *)
Fixpoint index (sizes loc : list nat) : nat := match sizes, loc with _ :: ns, x :: l => x * cells ns + index ns l | _, _ => 0 end.
Lemma strides_cells n ns : strides (n :: ns) = cells ns :: strides ns.
Proof.
  revert n; induction ns as [|m ns IH]; intros n; [reflexivity|]. change (strides (n :: m :: ns)) with (match strides (m :: ns) with s :: _ => s * m :: strides (m :: ns) | [] => 1 :: strides (m :: ns) end). rewrite IH. f_equal. cbn [cells fold_right]. fold (cells ns). lia.
Qed.
Lemma inner_index sizes : forall loc, length loc = length sizes -> inner loc (strides sizes) = Ok (index sizes loc).
Proof.
  induction sizes as [|n ns IH]; intros [|x l] H; try discriminate; [reflexivity|]. rewrite strides_cells. cbn [inner]. rewrite IH by (cbn in H; lia). reflexivity.
Qed.
Lemma in_range_length sizes loc : in_range sizes loc -> length loc = length sizes.
Proof. induction 1; cbn; congruence. Qed.
Lemma index_lt sizes loc : in_range sizes loc -> index sizes loc < cells sizes.
Proof. induction 1 as [|n x ns l H Hl IH]; cbn [index cells fold_right]; [lia|]. fold (cells ns). nia. Qed.
Lemma index_injective sizes p : in_range sizes p -> forall q, in_range sizes q -> index sizes p = index sizes q -> p = q.
Proof.
  induction 1 as [|n x ns l H Hl IH]; intros q Hq E; inversion Hq as [|n' y ns' l' Hy Hl' E1 E2]; subst; [reflexivity|]. cbn [index] in E. pose proof (index_lt _ _ Hl). pose proof (index_lt _ _ Hl').
  destruct (index_inj (cells ns) x (index ns l) y (index ns l')) as [-> E']; [assumption|assumption|assumption|]. f_equal. now apply IH.
Qed.
Lemma index_onto sizes : forall k, k < cells sizes -> exists loc, in_range sizes loc /\ index sizes loc = k.
Proof.
  induction sizes as [|n ns IH]; intros k H; cbn [cells fold_right] in H; [exists []; split; [constructor|cbn; lia]|]. fold (cells ns) in H. assert (cells ns <> 0) as Hc by nia.
  destruct (IH (k mod cells ns)) as (l & Hl & El); [now apply Nat.mod_upper_bound|]. exists (k / cells ns :: l). split; [constructor; [apply Nat.div_lt_upper_bound; lia|exact Hl]|]. cbn [index]. rewrite El. rewrite (Nat.div_mod k (cells ns)) at 3 by exact Hc. lia.
Qed.
Lemma cells_pos sizes : Forall (fun n => 0 < n) sizes -> 0 < cells sizes.
Proof. induction 1; cbn [cells fold_right]; [lia|]. fold (cells l). nia. Qed.

Section Array.
Context {A : Type}.
Variable d : A.
Implicit Types a : arr A.
Definition awf (sizes : list nat) a : Prop := asizes a = sizes /\ astrides a = strides sizes /\ length (avals a) = cells sizes.
Lemma new_array_ok sizes v : sizes <> [] -> exists a, new_array sizes v = Ok a /\ awf sizes a /\ forall k, nth k (avals a) v = v.
Proof.
  destruct sizes as [|n ns]; [congruence|]. intros _. unfold new_array. rewrite strides_cells. cbn [get nth_error obind]. eexists. split; [reflexivity|]. split; [|intros k; apply nth_repeat].
  split; [reflexivity|]. split; [cbn [astrides]; now rewrite strides_cells|]. cbn [avals]. rewrite repeat_length. cbn [cells fold_right]. fold (cells ns). lia.
Qed.
Lemma arr_at_ok sizes a loc : awf sizes a -> in_range sizes loc -> arr_at a loc = Ok (nth (index sizes loc) (avals a) d).
Proof. intros (S1 & S2 & L) H. unfold arr_at. rewrite S2, inner_index by now apply in_range_length. cbn [obind]. apply get_ok. rewrite L. now apply index_lt. Qed.
Lemma arr_put_ok sizes a loc x : awf sizes a -> in_range sizes loc -> exists a', arr_put a loc x = Ok a' /\ awf sizes a' /\
  forall q, in_range sizes q -> nth (index sizes q) (avals a') d = if list_eq_dec Nat.eq_dec q loc then x else nth (index sizes q) (avals a) d.
Proof.
  intros (S1 & S2 & L) H. unfold arr_put. rewrite S2, inner_index by now apply in_range_length. cbn [obind]. pose proof (index_lt _ _ H). rewrite put_ok by congruence. cbn [obind]. eexists. split; [reflexivity|]. split; [repeat split; cbn; [assumption|now rewrite set_nth_length]|].
  intros q Hq. cbn [avals]. rewrite nth_set_nth by congruence. destruct (list_eq_dec Nat.eq_dec q loc) as [->|Hne]; [now rewrite Nat.eqb_refl|]. destruct (Nat.eqb_spec (index sizes q) (index sizes loc)) as [E|]; [|reflexivity]. now apply index_injective in E.
Qed.

(** the odometer *)
Fixpoint odo (mins loc : list nat) : nat := match mins, loc with m :: ms, x :: l => x + m * odo ms l | _, _ => 0 end.
Lemma advance_some mins loc : in_range mins loc -> forall loc', advance loc mins = Some loc' -> in_range mins loc' /\ odo mins loc' = S (odo mins loc).
Proof.
  induction 1 as [|m x ms l H Hl IH]; cbn [advance]; [discriminate|]. intros loc'. destruct (Nat.ltb_spec (S x) m) as [L|L].
  - intros E. injection E as <-. split; [constructor; assumption|]. reflexivity.
  - destruct (advance l ms) as [l'|]; [|discriminate]. cbn. intros E. injection E as <-. destruct (IH l' eq_refl) as [Hr Ho]. split; [constructor; [lia|exact Hr]|]. cbn [odo]. rewrite Ho. nia.
Qed.
Lemma advance_none mins loc : in_range mins loc -> advance loc mins = None -> S (odo mins loc) = cells mins.
Proof.
  induction 1 as [|m x ms l H Hl IH]; cbn [advance]; [reflexivity|]. destruct (Nat.ltb_spec (S x) m) as [L|L]; [discriminate|]. destruct (advance l ms); [discriminate|]. intros _. specialize (IH eq_refl). cbn [odo cells fold_right]. fold (cells ms). nia.
Qed.
Lemma odo_lt mins loc : in_range mins loc -> odo mins loc < cells mins.
Proof. induction 1 as [|m x ms l H Hl IH]; cbn [odo cells fold_right]; [lia|]. fold (cells ms). nia. Qed.
Lemma odo_injective mins p : in_range mins p -> forall q, in_range mins q -> odo mins p = odo mins q -> p = q.
Proof.
  induction 1 as [|n x ns l H Hl IH]; intros q Hq E; inversion Hq as [|n' y ns' l' Hy Hl' E1 E2]; subst; [reflexivity|]. cbn [odo] in E.
  destruct (index_inj n (odo ns l) x (odo ns l') y) as [E' ->]; [assumption|assumption|lia|]. f_equal. now apply IH.
Qed.
(** the locations the odometer visits, and the moves it makes of them *)
Definition pair_of (old new : list nat) (loc : list nat) : nat * nat := (index old loc, index new loc).
Lemma moves_ok old new mins : length old = length mins -> length new = length mins -> forall fuel loc, in_range mins loc -> cells mins - odo mins loc <= fuel -> 
  exists ls, moves_loop fuel mins (strides old) (strides new) loc = Ok (map (pair_of old new) ls) /\ forall p, In p ls <-> in_range mins p /\ odo mins loc < odo mins p.
Proof.
  intros H1 H2. induction fuel as [|f IH]; intros loc Hr Hf; [pose proof (odo_lt _ _ Hr); lia|]. cbn [moves_loop]. destruct (advance loc mins) as [loc'|] eqn:E.
  - destruct (advance_some _ _ Hr _ E) as [Hr' Ho]. pose proof (in_range_length _ _ Hr') as Hl. rewrite !inner_index by congruence. cbn [obind]. destruct (IH loc' Hr' ltac:(lia)) as (ls & El & Hin). rewrite El. cbn [obind]. exists (loc' :: ls). split; [reflexivity|].
    intros p. cbn [In]. rewrite Hin. split; [intros [<-|[Hp Hlt]]; (split; [assumption|lia])|]. intros [Hp Hlt]. destruct (Nat.eq_dec (odo mins p) (odo mins loc')) as [Eo|]; [left; symmetry; now apply (odo_injective mins)|right; split; [exact Hp|lia]].
  - exists []. split; [reflexivity|]. pose proof (advance_none _ _ Hr E). intros p. split; [intros []|]. intros [Hp Hlt]. pose proof (odo_lt _ _ Hp). lia.
Qed.
Lemma move_all_ok old new (src : list A) ls : (forall p q, In p ls -> In q ls -> index new p = index new q -> p = q) -> forall dst, (forall p, In p ls -> index old p < length src /\ index new p < length dst) ->
  exists v, move_all src (map (pair_of old new) ls) dst = Ok v /\ length v = length dst /\ (forall p, In p ls -> nth (index new p) v d = nth (index old p) src d) /\
    (forall k, (forall p, In p ls -> index new p <> k) -> nth k v d = nth k dst d).
Proof.
  induction ls as [|p ls IH]; intros Hinj dst Hb; [exists dst; repeat split; intros; try contradiction; reflexivity|]. cbn [map pair_of move_all]. destruct (Hb p (or_introl eq_refl)) as [B1 B2]. rewrite (get_ok src _ d) by exact B1. cbn [obind]. rewrite put_ok by exact B2. cbn [obind].
  destruct (IH (fun x y Hx Hy => Hinj x y (or_intror Hx) (or_intror Hy)) (set_nth dst (index new p) (nth (index old p) src d))) as (v & E & L & N & O); [intros q Hq; rewrite set_nth_length; apply Hb; now right|].
  exists v. split; [exact E|]. split; [now rewrite L, set_nth_length|]. split.
  - intros q [<-|Hq]; [|now apply N]. destruct (in_dec (list_eq_dec Nat.eq_dec) p ls) as [Hin|Hout]; [now apply N|]. rewrite O; [now apply nth_set_same|]. intros q Hq E'. apply Hinj in E'; [subst; contradiction|now right|now left].
  - intros k Hk. rewrite O by (intros q Hq; apply Hk; now right). apply nth_set_other; [exact B2|]. specialize (Hk p (or_introl eq_refl)). congruence.
Qed.
Lemma mins_small old new : Forall2 le new old -> mins_of old new = new.
Proof. induction 1 as [|x y new old H HH IH]; [reflexivity|]. unfold mins_of in *. cbn [combine map fst snd]. rewrite IH. f_equal. lia. Qed.
Lemma in_range_le new old loc : Forall2 le new old -> in_range new loc -> in_range old loc.
Proof. intros H; revert loc; induction H as [|x y new old H HH IH]; intros loc Hl; inversion Hl; subst; constructor; [lia|now apply IH]. Qed.
Lemma zeros_in_range sizes : Forall (fun n => 0 < n) sizes -> in_range sizes (repeat 0 (length sizes)).
Proof. induction 1; cbn; constructor; assumption. Qed.
Lemma odo_zeros sizes : odo sizes (repeat 0 (length sizes)) = 0.
Proof. induction sizes; cbn; [reflexivity|]. rewrite IHsizes. lia. Qed.
Lemma index_zeros sizes : index sizes (repeat 0 (length sizes)) = 0.
Proof. induction sizes; cbn; [reflexivity|]. exact IHsizes. Qed.
Lemma cells_max sizes : Forall (fun n => 0 < n) sizes -> fold_right Nat.mul 1 (map (Nat.max 1) sizes) = cells sizes.
Proof. induction 1; [reflexivity|]. cbn [map fold_right cells]. rewrite IHForall. fold (cells l). rewrite Nat.max_r by assumption. reflexivity. Qed.
Lemma cells_le new old : Forall2 le new old -> cells new <= cells old.
Proof. induction 1; cbn [cells fold_right]; [lia|]. fold (cells l) (cells l'). nia. Qed.
Lemma resize_shrink sizes a new : awf sizes a -> sizes <> [] -> Forall (fun n => 0 < n) new -> Forall2 le new sizes ->
  exists a', arr_resize d a new = Ok a' /\ asizes a' = new /\ astrides a' = strides new /\ length (avals a') = cells sizes /\
    forall loc, in_range new loc -> nth (index new loc) (avals a') d = if list_eq_dec Nat.eq_dec loc (repeat 0 (length new)) then d else nth (index sizes loc) (avals a) d.
Proof.
  intros (S1 & S2 & L) Hne Hpos Hle. assert (length new = length sizes) as Hl by (clear -Hle; induction Hle; cbn; congruence). unfold arr_resize, moves. rewrite S1, S2, Hl, Nat.eqb_refl. cbv zeta. rewrite mins_small by exact Hle.
  pose proof (zeros_in_range new Hpos) as Hz. rewrite <- Hl. destruct (moves_ok sizes new new (eq_sym Hl) eq_refl (S (fold_right Nat.mul 1 (map (Nat.max 1) new))) (repeat 0 (length new)) Hz) as (ls & El & Hin).
  { rewrite odo_zeros, cells_max by exact Hpos. lia. }
  rewrite El. cbn [obind]. destruct sizes as [|n0 ns]; [congruence|]. rewrite strides_cells. cbn [get nth_error obind].
  destruct (move_all_ok (n0 :: ns) new (avals a) ls) with (dst := repeat d (n0 * cells ns)) as (v & Ev & Lv & N & O).
  { intros p q Hp Hq. apply index_injective; [apply Hin, Hp|apply Hin, Hq]. }
  { intros p Hp. apply Hin in Hp as [Hp _]. rewrite L, repeat_length. split; [apply index_lt; now apply (in_range_le new)|]. pose proof (index_lt _ _ Hp). pose proof (cells_le _ _ Hle) as Hc. cbn [cells fold_right] in Hc. fold (cells ns) in Hc. unfold cells in *. lia. }
  rewrite Ev. cbn [obind]. eexists. split; [reflexivity|]. split; [reflexivity|]. split; [reflexivity|]. split; [cbn [avals]; rewrite Lv, repeat_length; reflexivity|].
  intros loc Hloc. cbn [avals]. destruct (list_eq_dec Nat.eq_dec loc (repeat 0 (length new))) as [->|Hnz].
  - rewrite O; [rewrite index_zeros|]. { destruct (nth_in_or_default 0 (repeat d (n0 * cells ns)) d) as [Hx|Hx]; [now apply repeat_spec in Hx|exact Hx]. } intros p Hp E. apply Hin in Hp as [Hp Hlt]. apply index_injective in E; [subst; lia|assumption|assumption].
  - apply N. apply Hin. split; [exact Hloc|]. rewrite odo_zeros. destruct (Nat.eq_dec (odo new loc) 0) as [E0|]; [|lia]. exfalso. apply Hnz. apply (odo_injective new); [assumption|assumption|now rewrite odo_zeros].
Qed.
End Array.

(** reports *)
Lemma cells_snoc ds n : cells (ds ++ [n]) = cells ds * n.
Proof. induction ds as [|m ds IH]; cbn [app cells fold_right]; [lia|]. fold (cells (ds ++ [n])) (cells ds). rewrite IH. lia. Qed.
Lemma strides_snoc ds n : strides (ds ++ [n]) = map (fun s => s * n) (strides ds) ++ [1].
Proof. induction ds as [|m ds IH]; [reflexivity|]. change ((m :: ds) ++ [n]) with (m :: (ds ++ [n])). rewrite !strides_cells. cbn [map app]. rewrite IH, cells_snoc. reflexivity. Qed.
Definition named (names : list str) (ax : list (str * nat)) : Prop :=
  msorted ci_compare ax /\ length ax = length names /\
  (forall i k, i < length names -> ci_compare (nth i names []) k = Eq -> mfind ci_compare ax k = Some i) /\
  (forall k, (forall n, In n names -> ci_compare n k <> Eq) -> mfind ci_compare ax k = None) /\
  (forall nm i, In (nm, i) ax -> i < length names /\ nm = nth i names []).
Lemma named_nil : named [] [].
Proof. split; [constructor|]. split; [reflexivity|]. split; [cbn; intros; lia|]. split; [reflexivity|]. intros nm i []. Qed.
Lemma named_add names ax n : named names ax -> (forall m, In m names -> ci_compare m n <> Eq) -> named (names ++ [n]) (massign ci_compare ax n (length ax)).
Proof.
  intros (S & L & F & Z & I) Hn. pose proof (Z n Hn) as Hnone. destruct (minsert_new ci_compare ci_compare_antisym ax n (length ax) Hnone S) as (a & b & Eax & _ & Em).
  split; [apply massign_sorted; try exact ci_compare_antisym; try exact ci_compare_lt_trans; try exact ci_compare_eq_l; assumption|]. split; [rewrite Em; rewrite Eax in *; rewrite !app_length in *; cbn [length] in *; lia|]. split; [|split].
  - intros i k Hi Hk. rewrite (mfind_massign ci_compare ci_compare_antisym ci_compare_eq_l) by exact S. rewrite app_length in Hi. cbn in Hi. destruct (Nat.eq_dec i (length names)) as [->|].
    + rewrite app_nth2, Nat.sub_diag in Hk by lia. cbn in Hk. rewrite Hk. now rewrite L.
    + rewrite app_nth1 in Hk by lia. destruct (ci_compare n k) eqn:E; [|apply F; [lia|exact Hk]|apply F; [lia|exact Hk]]. exfalso. apply (Hn (nth i names [])); [apply nth_In; lia|]. rewrite (ci_compare_antisym n). rewrite (ci_compare_eq_l n k) by exact E. rewrite (ci_compare_antisym (nth i names [])), Hk. reflexivity.
  - intros k Hk. rewrite (mfind_massign ci_compare ci_compare_antisym ci_compare_eq_l) by exact S. destruct (ci_compare n k) eqn:E; [exfalso; apply (Hk n); [apply in_or_app; right; now left|exact E]| |]; apply Z; intros m Hm; apply Hk; apply in_or_app; now left.
  - intros nm i H. rewrite Em in H. rewrite app_length. cbn [length]. apply in_app_or in H. assert (In (nm, i) (a ++ b) \/ (nm, i) = (n, length ax)) as [H'|H'] by (destruct H as [H|[H|H]]; [left; apply in_or_app; now left|right; now symmetry|left; apply in_or_app; now right]).
    + rewrite <- Eax in H'. apply I in H' as [H1 H2]. split; [lia|]. now rewrite app_nth1.
    + injection H' as -> ->. rewrite L. split; [lia|]. rewrite app_nth2, Nat.sub_diag by lia. reflexivity.
Qed.
Lemma distinct_split names n rest : distinct (names ++ n :: rest) -> (forall m, In m names -> ci_compare m n <> Eq).
Proof. induction names as [|a names IH]; intros H m; [intros []|]. cbn in H. inversion H as [|? ? Ha Hr]; subst. intros [->|Hm]; [|now apply IH]. rewrite Forall_forall in Ha. apply Ha. apply in_or_app. right. now left. Qed.
Lemma add_axes_ok given : forall names sizes ax, named names ax -> length sizes = length names -> distinct (names ++ map fst given) -> Forall (fun n => 0 < n) (match sizes with [] => tl (map snd given) | _ => map snd given end) ->
  exists ax', add_axes given ax (strides sizes) = Ok (ax', strides (sizes ++ map snd given)) /\ named (names ++ map fst given) ax'.
Proof.
  induction given as [|[n size] given IH]; intros names sizes ax HN HL HD HP; cbn [map add_axes]; [exists ax; now rewrite !app_nil_r|]. cbn [map fst snd] in *.
  assert ((0 <? size) || (length ax =? 0) = true) as ->.
  { destruct HN as (_ & L & _). rewrite L, <- HL. destruct sizes; [apply orb_true_r|]. inversion HP; subst. destruct (Nat.ltb_spec 0 size); [reflexivity|lia]. }
  destruct (IH (names ++ [n]) (sizes ++ [size]) (massign ci_compare ax n (length ax))) as (ax' & E & HN').
  - apply named_add; [exact HN|]. now apply (distinct_split names n (map fst given)).
  - rewrite !app_length. cbn. lia.
  - now rewrite <- app_assoc.
  - destruct sizes; cbn [app tl] in *; [exact HP|]. now inversion HP.
  - exists ax'. rewrite <- !app_assoc in *. cbn [app] in *. rewrite strides_snoc in E. split; [exact E|exact HN'].
Qed.

Section Report.
Context {A : Type}.
Variable zero : A.
Implicit Types r : report A.
Definition rwf (names : list str) (n0 : nat) (ns : list nat) r : Prop :=
  named names (axes r) /\ length names = S (length ns) /\ rstrides r = strides (n0 :: ns) /\ length (rvals r) = n0 * cells ns /\ Forall (fun n => 0 < n) ns.
Lemma new_report_ok names n0 ns : distinct names -> length names = S (length ns) -> Forall (fun n => 0 < n) ns ->
  exists r, new_report zero (combine names (n0 :: ns)) = Ok r /\ rwf names n0 ns r /\ rvals r = repeat zero (n0 * cells ns).
Proof.
  intros HD HL HP. assert (map fst (combine names (n0 :: ns)) = names /\ map snd (combine names (n0 :: ns)) = n0 :: ns) as [E1 E2].
  { assert (length names = length (n0 :: ns)) as HL' by exact HL. revert HL'. generalize (n0 :: ns). clear. induction names as [|a names IH]; intros [|b l] H; try discriminate; [now split|]. cbn. destruct (IH l) as [-> ->]; [cbn in H; lia|]. now split. }
  destruct (add_axes_ok (combine names (n0 :: ns)) [] [] [] named_nil eq_refl) as (ax & E & HN); [now rewrite E1|now rewrite E2|]. rewrite E2 in E. rewrite E1 in HN. cbn [app] in *.
  destruct names as [|nm names]; [discriminate|]. cbn [combine] in *. unfold new_report. change (strides []) with (@nil nat) in E. rewrite E. cbn [obind]. rewrite strides_cells. cbn [get nth_error obind]. eexists. split; [reflexivity|]. split; [|reflexivity].
  split; [exact HN|]. split; [exact HL|]. split; [cbn [rstrides]; now rewrite strides_cells|]. split; [cbn [rvals]; apply repeat_length|exact HP].
Qed.
Lemma size_ok names n0 ns r : rwf names n0 ns r -> forall i k, i < length names -> ci_compare (nth i names []) k = Eq -> size_of r k = Ok (nth i (n0 :: ns) 0).
Proof.
  intros (HN & HL & HS & HV & HP) i k Hi Hk. unfold size_of. destruct HN as (_ & _ & F & _). rewrite (F i k Hi Hk). rewrite HS.
  assert (forall sizes j, j < length sizes -> nth j (strides sizes) 0 = cells (skipn (S j) sizes)) as Hst.
  { clear. induction sizes as [|n sizes IH]; intros j Hj; [cbn in Hj; lia|]. rewrite strides_cells. destruct j; [reflexivity|]. cbn [nth]. rewrite IH by (cbn in Hj; lia). reflexivity. }
  assert (length (strides (n0 :: ns)) = S (length ns)) as Hls. { clear. revert n0. induction ns; intros; rewrite strides_cells; cbn [length]; [reflexivity|]. now rewrite IHns. }
  rewrite (get_ok _ i 0) by lia. cbn [obind]. rewrite Hst by (cbn; lia).
  assert (forall j, 0 < cells (skipn j ns)) as Hc. { intros j. apply cells_pos. clear -HP. revert j. induction HP; intros [|j]; cbn; constructor || auto; assumption. }
  destruct i as [|i].
  - cbn [obind skipn nth]. rewrite HV. pose proof (Hc 0) as H0. cbn [skipn] in H0. destruct (cells ns) eqn:E; [lia|]. rewrite <- E. rewrite Nat.div_mul by lia. reflexivity.
  - rewrite (get_ok _ i 0) by lia. cbn [obind]. rewrite Hst by (cbn; lia). change (skipn (S (S i)) (n0 :: ns)) with (skipn (S i) ns). change (skipn (S i) (n0 :: ns)) with (skipn i ns). pose proof (Hc (S i)) as H1. cbn [nth].
    assert (cells (skipn i ns) = nth i ns 0 * cells (skipn (S i) ns)) as ->.
    { assert (i < length ns) as Hi' by lia. clear -Hi'. revert i Hi'. induction ns as [|m ns IH]; intros i Hi'; [cbn in Hi'; lia|]. destruct i; [reflexivity|]. cbn [skipn nth]. apply IH. cbn in Hi'. lia. }
    rewrite Nat.div_mul by lia. destruct (cells (skipn (S i) ns)); [lia|reflexivity].
Qed.
Lemma read_ok names n0 ns r loc : rwf names n0 ns r -> in_range (n0 :: ns) loc -> read_cell r loc = Ok (nth (index (n0 :: ns) loc) (rvals r) zero).
Proof.
  intros (_ & _ & HS & HV & _) H. unfold read_cell. rewrite HS, inner_index by now apply in_range_length. cbn [obind]. pose proof (index_lt _ _ H) as Hlt. cbn [cells fold_right] in Hlt. fold (cells ns) in Hlt. destruct (Nat.ltb_spec (index (n0 :: ns) loc) (length (rvals r))); [|lia]. now apply get_ok.
Qed.
Lemma write_ok names n0 ns r x0 l x : rwf names n0 ns r -> in_range ns l -> exists r', write_cell zero r (x0 :: l) x = (r', Ok tt) /\ rwf names (Nat.max n0 (S x0)) ns r' /\ axes r' = axes r /\
  forall q, in_range (Nat.max n0 (S x0) :: ns) q -> nth (index (n0 :: ns) q) (rvals r') zero = if list_eq_dec Nat.eq_dec (x0 :: l) q then x else if hd 0 q <? n0 then nth (index (n0 :: ns) q) (rvals r) zero else zero.
Proof.
  intros (HN & HL & HS & HV & HP) Hl. unfold write_cell, place. rewrite HS, inner_index by (cbn; now rewrite (in_range_length _ _ Hl)). pose proof (index_lt _ _ Hl) as Hi. set (k := index (n0 :: ns) (x0 :: l)). assert (k = x0 * cells ns + index ns l) as Ek by reflexivity.
  assert (forall q, in_range (Nat.max n0 (S x0) :: ns) q -> index (n0 :: ns) q = k -> x0 :: l = q) as Hinj. { intros q Hq E. apply (index_injective (Nat.max n0 (S x0) :: ns)); [constructor; [lia|exact Hl]|exact Hq|]. inversion Hq; subst. cbn [index] in *. lia. }
  assert (strides (n0 :: ns) = strides (Nat.max n0 (S x0) :: ns)) as Es by now rewrite !strides_cells.
  destruct (Nat.ltb_spec k (length (rvals r))) as [L|L].
  - assert (x0 < n0) as Hx by nia. replace (Nat.max n0 (S x0)) with n0 in * by lia. eexists. split; [reflexivity|]. split; [split; [exact HN|]; split; [exact HL|]; split; [exact HS|]; split; [cbn [rvals]; now rewrite set_nth_length|exact HP]|]. split; [reflexivity|].
    intros q Hq. cbn [rvals]. rewrite nth_set_nth by exact L. destruct (list_eq_dec Nat.eq_dec (x0 :: l) q) as [<-|Hne]; [fold k; now rewrite Nat.eqb_refl|]. destruct (Nat.eqb_spec (index (n0 :: ns) q) k) as [E|_]; [exfalso; apply Hne; now apply Hinj|]. inversion Hq; subst. cbn [hd]. destruct (Nat.ltb_spec y n0); [reflexivity|lia].
  - assert (n0 <= x0) as Hx by nia. replace (Nat.max n0 (S x0)) with (S x0) in * by lia. rewrite strides_cells. cbn [rvals]. rewrite vresize_length. destruct (Nat.ltb_spec k ((x0 + 1) * cells ns)); [|nia].
    eexists. split; [reflexivity|]. split; [split; [exact HN|]; split; [exact HL|]; split; [cbn [rstrides]; now rewrite strides_cells|]; split; [cbn [rvals]; rewrite set_nth_length, vresize_length; lia|exact HP]|]. split; [reflexivity|].
    intros q Hq. cbn [rvals]. rewrite nth_set_nth by now rewrite vresize_length. destruct (list_eq_dec Nat.eq_dec (x0 :: l) q) as [<-|Hne]; [fold k; now rewrite Nat.eqb_refl|]. destruct (Nat.eqb_spec (index (n0 :: ns) q) k) as [E|_]; [exfalso; apply Hne; now apply Hinj|].
    inversion Hq as [|? y ? l' Hy Hl' E1 E2]; subst. cbn [hd index]. pose proof (index_lt _ _ Hl') as Hi'. unfold vresize. destruct (Nat.ltb_spec y n0) as [Ly|Ly].
    + rewrite app_nth1 by (rewrite firstn_length, HV; nia). rewrite <- (firstn_skipn ((x0 + 1) * cells ns) (rvals r)) at 2. rewrite app_nth1 by (rewrite firstn_length, HV; nia). reflexivity.
    + rewrite app_nth2 by (rewrite firstn_length, HV; nia). match goal with |- nth ?i _ _ = _ => destruct (nth_in_or_default i (repeat zero ((x0 + 1) * cells ns - length (rvals r))) zero) as [Hx'|Hx'] end; [now apply repeat_spec in Hx'|exact Hx'].
Qed.
Lemma grown_ge n0 (ws : list (list nat * A)) : n0 <= grown n0 ws.
Proof. unfold grown. revert n0; induction ws as [|w ws IH]; intros n0; cbn [fold_left]; [lia|]. specialize (IH (Nat.max n0 (S (hd 0 (fst w))))). lia. Qed.
Lemma in_grown n0 ns m q : n0 <= m -> in_range (n0 :: ns) q -> in_range (m :: ns) q.
Proof. intros H Hq. inversion Hq; subst. constructor; [lia|assumption]. Qed.
Lemma write_all_ok names ns ws : Forall (fun w => exists x0 l, fst w = x0 :: l /\ in_range ns l) ws -> forall n0 r, rwf names n0 ns r -> exists r', write_all zero r ws = (r', Ok tt) /\ rwf names (grown n0 ws) ns r' /\ axes r' = axes r /\
  forall q, in_range (grown n0 ws :: ns) q -> nth (index (n0 :: ns) q) (rvals r') zero = fold_left (fun x w => if list_eq_dec Nat.eq_dec (fst w) q then snd w else x) ws (if hd 0 q <? n0 then nth (index (n0 :: ns) q) (rvals r) zero else zero).
Proof.
  induction 1 as [|w ws (x0 & l & Ew & Hl) Hws IH]; intros n0 r W.
  - exists r. split; [reflexivity|]. split; [exact W|]. split; [reflexivity|]. intros q Hq. cbn [fold_left]. unfold grown in Hq. cbn in Hq. inversion Hq; subst. cbn [hd]. destruct (Nat.ltb_spec y n0); [reflexivity|lia].
  - destruct w as [loc x]. cbn [fst] in Ew. subst loc. cbn [write_all]. destruct (write_ok names n0 ns r x0 l x W Hl) as (r1 & E1 & W1 & A1 & N1). rewrite E1. destruct (IH _ r1 W1) as (r' & E' & W' & A' & N'). exists r'. split; [exact E'|]. split; [exact W'|]. split; [congruence|].
    intros q Hq. change (grown n0 ((x0 :: l, x) :: ws)) with (grown (Nat.max n0 (S x0)) ws) in Hq. specialize (N' q Hq). inversion Hq as [|? y ? l' Hy Hl' Q1 Q2]; subst. cbn [index] in *. rewrite N'. cbn [fold_left fst snd hd]. f_equal.
    destruct (Nat.ltb_spec y (Nat.max n0 (S x0))) as [Ly|Ly].
    + specialize (N1 (y :: l') ltac:(constructor; [exact Ly|exact Hl'])). cbn [index hd] in N1. exact N1.
    + destruct (list_eq_dec Nat.eq_dec (x0 :: l) (y :: l')) as [E|]; [injection E; lia|]. destruct (Nat.ltb_spec y n0); [lia|reflexivity].
Qed.
Lemma set_all_ok names n0 ns r n vals : rwf names n0 ns r -> n0 <= n -> length vals = n * cells ns -> set_all r vals = Ok (Report (axes r) (rstrides r) vals) /\ rwf names n ns (Report (axes r) (rstrides r) vals).
Proof.
  intros (HN & HL & HS & HV & HP) Hn Hv. split.
  - unfold set_all. rewrite HS, strides_cells. pose proof (cells_pos ns HP). destruct (cells ns) as [|c] eqn:E; [lia|]. rewrite Hv, HV, Nat.mod_mul by lia. cbn [Nat.eqb andb]. destruct (Nat.leb_spec (n0 * S c) (n * S c)); [reflexivity|nia].
  - split; [exact HN|]. split; [exact HL|]. split; [cbn [rstrides]; rewrite HS; now rewrite !strides_cells|]. split; [exact Hv|exact HP].
Qed.
Lemma set_all_refused names n0 ns r vals : rwf names n0 ns r -> (forall n, n0 <= n -> length vals <> n * cells ns) -> set_all r vals = Throw.
Proof.
  intros (HN & HL & HS & HV & HP) H. unfold set_all. rewrite HS, strides_cells. pose proof (cells_pos ns HP). destruct (cells ns) as [|c] eqn:E; [lia|]. rewrite <- E in *. rewrite HV. destruct (Nat.eqb_spec (length vals mod cells ns) 0) as [Hm|Hm]; cbn [andb]; [|reflexivity]. destruct (Nat.leb_spec (n0 * cells ns) (length vals)) as [L|L]; [|reflexivity]. exfalso.
  pose proof (Nat.div_mod (length vals) (cells ns) ltac:(lia)) as D. apply (H (length vals / cells ns)); [|lia]. apply Nat.div_le_lower_bound; lia.
Qed.
Lemma store_axes_ok names n0 ns r : rwf names n0 ns r -> forall ax out, (forall nm i, In (nm, i) ax -> i < length names /\ nm = nth i names []) -> length out = length names ->
  exists out', store_axes r ax out = Ok out' /\ length out' = length names /\ forall i, i < length names -> (exists nm, In (nm, i) ax) \/ nth i out ([], 0) = (nth i names [], nth i (n0 :: ns) 0) -> nth i out' ([], 0) = (nth i names [], nth i (n0 :: ns) 0).
Proof.
  intros W. induction ax as [|[nm i] ax IH]; intros out Hin Hl; [exists out; split; [reflexivity|]; split; [exact Hl|]; intros i Hi [[nm []]|H]; exact H|]. cbn [store_axes]. destruct (Hin nm i (or_introl eq_refl)) as [Hi En].
  assert (size_of r nm = Ok (nth i (n0 :: ns) 0)) as Es by (apply (size_ok names n0 ns r W i nm Hi); rewrite En; apply (cmp_refl ci_compare ci_compare_antisym)).
  unfold size_of in Es. assert (mfind ci_compare (axes r) nm = Some i) as Ef by (destruct W as ((_ & _ & F & _) & _); apply F; [exact Hi|]; rewrite En; apply (cmp_refl ci_compare ci_compare_antisym)). rewrite Ef in Es.
  destruct (get (rstrides r) i) as [st| | |]; try discriminate. cbn [obind] in *. match type of Es with obind ?x _ = _ => destruct x as [n| | |]; try discriminate end. cbn [obind] in *. destruct st as [|st]; [discriminate|]. match type of Es with Ok ?u = Ok ?v => assert (u = v) as Es' by congruence end. rewrite put_ok by lia. cbn [obind].
  destruct (IH (set_nth out i (nm, n / S st))) as (out' & E & L & N); [intros; apply Hin; now right|now rewrite set_nth_length|]. exists out'. split; [exact E|]. split; [exact L|]. intros j Hj H. apply N; [exact Hj|]. destruct (Nat.eq_dec j i) as [->|Hne].
  - right. rewrite nth_set_same by lia. rewrite Es', En. reflexivity.
  - rewrite nth_set_other by lia. destruct H as [[nm' [E'|H']]|H]; [injection E'; congruence|left; now exists nm'|now right].
Qed.
Lemma store_ok names n0 ns r : rwf names n0 ns r -> store r = Ok (combine names (n0 :: ns), rvals r).
Proof.
  intros W. unfold store. pose proof W as ((HS & HA & HF & HZ & HI) & HL & _). destruct (store_axes_ok names n0 ns r W (axes r) (repeat ([], 0) (length (axes r))) HI) as (out & E & L & N); [now rewrite repeat_length|]. assert (out = combine names (n0 :: ns)) as ->; [|rewrite E; reflexivity].
  apply (nth_ext _ _ ([], 0) ([], 0)); [refine (eq_trans L _); rewrite combine_length, HL; cbn [length]; now rewrite Nat.min_id|]. intros i Hi. assert (i < length names) as Hi' by (rewrite <- L; exact Hi). rewrite combine_nth by exact HL. apply N; [exact Hi'|]. left. assert (mfind ci_compare (axes r) (nth i names []) = Some i) as Ef by (apply HF; [exact Hi'|]; apply (cmp_refl ci_compare ci_compare_antisym)). apply mfind_in in Ef as (x & Hx & _). now exists x.
Qed.
Lemma build_ok names n0 ns r : rwf names n0 ns r -> distinct names -> exists r', build zero (combine names (n0 :: ns), rvals r) = Ok r' /\ rwf names n0 ns r' /\ rvals r' = rvals r.
Proof.
  intros W HD. pose proof W as (HN & HL & HS & HV & HP). unfold build. cbn [fst snd]. destruct (new_report_ok names n0 ns HD HL HP) as (r0 & E & W0 & _). rewrite E. cbn [obind]. destruct (set_all_ok names n0 ns r0 n0 (rvals r) W0 (le_n _) HV) as [E' W']. rewrite E'. eexists. split; [reflexivity|]. now split.
Qed.
End Report.

From Coq Require Import ZArith List Arith Bool Lia.
From Verif Require Import Base Vec OMap StringModel StringProofs NdModel NdSpec NdProofs HeaderModel HeaderSpec.
Import ListNotations.
Local Open Scope nat_scope.
Section H.
Context {A C : Type}.
Variable zero : A.
Variable blank : C.
Notation grow := (grow blank). Notation blank_row := (blank_row blank).
Definition no_head : header C := Header [] [].
Definition tab (f : full A C) (i : nat) : list (list C) := table (nth i (heads f) no_head).
Definition wide (ls : list (list str)) (i : nat) : nat := length (nth i ls []).
Definition empty_row (ls : list (list str)) (i : nat) : list C := repeat blank (wide ls i).
Definition hwf (names : list str) (ls : list (list str)) (f : full A C) : Prop :=
  named names (axes (body f)) /\ length ls = length names /\ map labels (heads f) = ls /\ forall i, Forall (fun r => length r = wide ls i) (tab f i).
Lemma heads_length names ls f : hwf names ls f -> length (heads f) = length names.
Proof. intros (_ & L & E & _). rewrite <- L, <- E. symmetry. apply map_length. Qed.
Lemma labels_nth names ls f i : hwf names ls f -> labels (nth i (heads f) no_head) = nth i ls [].
Proof. intros (_ & _ & <- & _). change (@nil str) with (labels no_head). symmetry. apply map_nth. Qed.
Lemma map_set_same {X Y} (g : X -> Y) l i x d : i < length l -> g x = g (nth i l d) -> map g (set_nth l i x) = map g l.
Proof.
  intros Hi E. apply (nth_ext _ _ (g d) (g d)); [rewrite !map_length, set_nth_length; reflexivity|]. intros k Hk. rewrite !map_nth. rewrite map_length, set_nth_length in Hk.
  rewrite nth_set_nth by exact Hi. destruct (Nat.eqb_spec k i) as [->|N]; [exact E|reflexivity].
Qed.
Lemma Forall_set {X} (P : X -> Prop) l i x : Forall P l -> P x -> Forall P (set_nth l i x).
Proof. intros F. revert i. induction F as [|y l Hy F IH]; intros [|i] Hx; cbn; constructor; auto. Qed.
Lemma nth_grown {X} (l : list X) (b : X) n q : nth q (l ++ repeat b (n - length l)) b = nth q l b.
Proof.
  destruct (Nat.lt_ge_cases q (length l)) as [H|H]; [apply app_nth1, H|]. rewrite app_nth2 by exact H. rewrite (nth_overflow l) by exact H.
  apply nth_repeat.
Qed.
Lemma add_one names ls f i axis k values : hwf names ls f -> i < length names -> ci_compare (nth i names []) axis = Eq -> length values = wide ls i ->
  exists f', add_header_row blank f axis (Z.of_nat k) values = Ok f' /\ body f' = body f /\ hwf names ls f' /\ (forall j, j <> i -> nth j (heads f') no_head = nth j (heads f) no_head) /\
    length (tab f' i) = Nat.max (length (tab f i)) (S k) /\ forall q, nth q (tab f' i) (empty_row ls i) = if q =? k then values else nth q (tab f i) (empty_row ls i).
Proof.
  intros W Hi Hn Hv. assert (Lh := heads_length _ _ _ W). assert (Lb := labels_nth _ _ _ i W). pose proof W as (N & L & E & F). unfold add_header_row.
  rewrite (proj1 (proj2 (proj2 N)) i axis Hi Hn). rewrite (get_ok _ _ no_head) by lia. cbn [obind]. rewrite Lb, Hv. unfold wide at 1. rewrite Nat.eqb_refl.
  destruct (Z.ltb_spec (Z.of_nat k) 0) as [X|_]; [lia|]. rewrite Nat2Z.id. fold (tab f i). set (h := nth i (heads f) no_head) in *.
  assert (G : exists t, (if length (tab f i) <=? k then grow h (k + 1) else h) = Header (nth i ls []) t /\ length t = Nat.max (length (tab f i)) (S k) /\ Forall (fun r => length r = wide ls i) t /\ forall q, nth q t (empty_row ls i) = nth q (tab f i) (empty_row ls i)).
  { assert (Eb : blank_row h = empty_row ls i) by (unfold HeaderModel.blank_row; rewrite Lb; reflexivity).
    destruct (Nat.leb_spec (length (tab f i)) k) as [G|G].
    - eexists. split; [unfold HeaderModel.grow; rewrite Lb; reflexivity|]. change (table h) with (tab f i). rewrite Eb. split; [rewrite app_length, repeat_length; lia|]. split.
      + apply Forall_app. split; [apply F|]. apply Forall_forall. intros r Hr. apply repeat_spec in Hr. subst r. apply repeat_length.
      + intros q. apply nth_grown.
    - exists (tab f i). split; [rewrite <- Lb; unfold tab; fold h; destruct h; reflexivity|]. split; [lia|]. split; [apply F|]. reflexivity. }
  destruct G as (t & -> & Lt & Ft & Nt). cbn [table labels]. rewrite put_ok by lia. cbn [obind]. rewrite put_ok by lia. cbn [obind]. eexists. split; [reflexivity|]. split; [reflexivity|].
  assert (T : forall j, tab (Full (body f) (set_nth (heads f) i (Header (nth i ls []) (set_nth t k values)))) j = if j =? i then set_nth t k values else tab f j).
  { intros j. unfold tab. cbn [heads]. rewrite nth_set_nth by lia. destruct (j =? i); reflexivity. }
  split.
  - split; [exact N|]. split; [exact L|]. split.
    + cbn [heads]. rewrite (map_set_same _ _ _ _ no_head); [exact E|lia|]. symmetry. exact Lb.
    + intros j. rewrite T. destruct (Nat.eqb_spec j i) as [->|]; [|apply F]. apply Forall_set; [exact Ft|exact Hv].
  - split; [intros j Hj; cbn [heads]; apply nth_set_other; [lia|exact Hj]|]. rewrite T, Nat.eqb_refl. split; [rewrite set_nth_length; exact Lt|].
    intros q. rewrite nth_set_nth by lia. rewrite Nt. reflexivity.
Qed.
Lemma about_other names ax i j axis : named names ax -> i < length names -> j < length names -> ci_compare (nth i names []) axis = Eq -> j <> i -> ci_compare (nth j names []) axis <> Eq.
Proof. intros (_ & _ & F & _) Hi Hj E N E'. assert (X := F i axis Hi E). rewrite (F j axis Hj E') in X. congruence. Qed.
Lemma add_all_ok names ls adds : forall f, hwf names ls f -> fitting names ls adds ->
  exists f', add_all blank f adds = Ok f' /\ body f' = body f /\ hwf names ls f' /\
    forall i, i < length names -> length (tab f' i) = rows_needed (length (tab f i)) adds (nth i names []) /\
      forall k, nth k (tab f' i) (empty_row ls i) = latest_row adds (nth i names []) k (nth k (tab f i) (empty_row ls i)).
Proof.
  induction adds as [|[[axis k] values] adds IH]; intros f W Ft.
  - exists f. split; [reflexivity|]. split; [reflexivity|]. split; [exact W|]. intros i Hi. split; reflexivity.
  - inversion Ft as [|? ? (i & Hi & Hn & Hv) Ft']; subst. cbn [fst snd] in *. destruct (add_one names ls f i axis k values W Hi Hn Hv) as (f1 & E1 & B1 & W1 & O1 & L1 & N1).
    destruct (IH f1 W1 Ft') as (f2 & E2 & B2 & W2 & H2). exists f2. cbn [add_all]. rewrite E1. cbn [obind]. split; [exact E2|]. split; [congruence|]. split; [exact W2|].
    intros j Hj. destruct (H2 j Hj) as [L2 N2]. unfold rows_needed, latest_row in *. cbn [fold_left]. unfold about at 2. unfold about at 3. cbn [fst snd].
    destruct (Nat.eq_dec j i) as [->|Nj].
    + rewrite Hn. split; [rewrite L2, L1; reflexivity|]. intros q. rewrite N2. cbn [andb]. rewrite N1. rewrite (Nat.eqb_sym q k). reflexivity.
    + assert (X := about_other _ _ i j axis (proj1 W) Hi Hj Hn Nj). unfold tab in *. rewrite (O1 j Nj) in *. destruct (ci_compare (nth j names []) axis); [congruence| |]; (split; [exact L2|exact N2]).
Qed.
(** construction *)
Lemma combine_fst {X Y} (a : list X) (b : list Y) : length a = length b -> map fst (combine a b) = a.
Proof. revert b. induction a as [|x a IH]; intros [|y b] H; cbn in *; try lia; [reflexivity|]. rewrite IH by lia. reflexivity. Qed.
Lemma add_headers_ok given : forall names ax hs, named names ax -> distinct (names ++ map (fun g => fst (fst g)) given) -> length hs = length names + length given ->
  exists hs', add_headers blank given ax hs = Ok hs' /\ length hs' = length hs /\ (forall i, i < length names -> nth i hs' no_head = nth i hs no_head) /\
    forall i, i < length given -> nth (length names + i) hs' no_head = grow (Header (snd (nth i given ([], 0, []))) []) (snd (fst (nth i given ([], 0, [])))).
Proof.
  induction given as [|[[n size] l] given IH]; intros names ax hs HN HD HL; cbn [add_headers map fst] in *.
  - exists hs. split; [reflexivity|]. split; [reflexivity|]. split; [reflexivity|]. cbn. lia.
  - assert (La : length ax = length names) by apply HN. cbn [length] in HL. rewrite put_ok by lia. cbn [obind].
    assert (HN' : named (names ++ [n]) (massign ci_compare ax n (length ax))) by (apply named_add; [exact HN|]; exact (distinct_split names n _ HD)).
    destruct (IH (names ++ [n]) (massign ci_compare ax n (length ax)) (set_nth hs (length ax) (grow (Header l []) size)) HN') as (hs' & E & L & P & Q).
    + rewrite <- app_assoc. exact HD.
    + rewrite set_nth_length, app_length. cbn [length]. lia.
    + exists hs'. split; [exact E|]. split; [rewrite L; apply set_nth_length|]. rewrite app_length in *. cbn [length] in *. split.
      * intros i Hi. rewrite P by lia. apply nth_set_other; lia.
      * intros [|i] Hi.
        -- rewrite Nat.add_0_r. rewrite P by lia. rewrite <- La. cbn [nth fst snd]. rewrite nth_set_nth by lia. rewrite Nat.eqb_refl. reflexivity.
        -- replace (length names + S i) with (length names + 1 + i) by lia. rewrite Q by lia. reflexivity.
Qed.
Lemma new_full_ok names n0 ns ls : distinct names -> length names = S (length ns) -> Forall (fun n => 0 < n) ns -> length ls = length names ->
  exists f, new_full zero blank (combine (combine names (n0 :: ns)) ls) = Ok f /\ new_report zero (combine names (n0 :: ns)) = Ok (body f) /\ rwf names n0 ns (body f) /\ hwf names ls f /\
    forall i, i < length names -> tab f i = repeat (empty_row ls i) (nth i (n0 :: ns) 0).
Proof.
  intros HD HL HP Hl. set (given := combine (combine names (n0 :: ns)) ls). assert (Lc : length (combine names (n0 :: ns)) = length names) by (rewrite combine_length; cbn [length]; lia).
  assert (Lg : length given = length names) by (unfold given; rewrite combine_length, Lc; lia).
  assert (E1 : map fst given = combine names (n0 :: ns)) by (unfold given; apply combine_fst; lia).
  destruct (new_report_ok zero names n0 ns HD HL HP) as (b & Eb & Wb & _).
  destruct (add_headers_ok given [] [] (repeat (Header [] []) (length given)) named_nil) as (hs & Eh & Lh & _ & Q).
  { cbn [app]. rewrite <- (map_map fst fst), E1, combine_fst by (cbn [length]; lia). exact HD. }
  { rewrite repeat_length. reflexivity. }
  cbn [length Nat.add] in Q. rewrite repeat_length in Lh. exists (Full b hs). unfold new_full. rewrite E1, Eb. cbn [obind]. rewrite Eh. split; [reflexivity|]. split; [reflexivity|]. split; [exact Wb|].
  assert (G : forall i, i < length names -> nth i given ([], 0, []) = (nth i names [], nth i (n0 :: ns) 0, nth i ls [])).
  { intros i Hi. refine (eq_trans (combine_nth (combine names (n0 :: ns)) ls i ([], 0) [] (eq_trans Lc (eq_sym Hl))) _). f_equal. exact (combine_nth names (n0 :: ns) i [] 0 HL). }
  assert (T : forall i, i < length names -> nth i hs no_head = Header (nth i ls []) (repeat (empty_row ls i) (nth i (n0 :: ns) 0))).
  { intros i Hi. rewrite Q by lia. rewrite G by exact Hi. cbn [fst snd]. unfold HeaderModel.grow. cbn [labels table length app]. rewrite Nat.sub_0_r. reflexivity. }
  split.
  - split; [exact (proj1 Wb)|]. split; [exact Hl|]. split.
    + cbn [heads]. apply (nth_ext _ _ [] []); [rewrite map_length; lia|]. intros i Hi. rewrite map_length in Hi. change (@nil str) with (labels no_head) at 1. rewrite map_nth, T by lia. reflexivity.
    + intros i. unfold tab. cbn [heads]. destruct (Nat.lt_ge_cases i (length names)) as [H|H].
      * rewrite T by exact H. cbn [table]. apply Forall_forall. intros r Hr. apply repeat_spec in Hr. subst r. apply repeat_length.
      * rewrite nth_overflow by lia. constructor.
  - intros i Hi. unfold tab. cbn [heads]. rewrite T by exact Hi. reflexivity.
Qed.
(** reading a stored table *)
Lemma add_rows_ok names ls i axis rows : forall f k, hwf names ls f -> i < length names -> ci_compare (nth i names []) axis = Eq -> Forall (fun r => length r = wide ls i) rows ->
  exists f', add_rows blank f axis (wide ls i) k rows = Ok f' /\ body f' = body f /\ hwf names ls f' /\ (forall j, j <> i -> nth j (heads f') no_head = nth j (heads f) no_head) /\
    length (tab f' i) = (match rows with [] => length (tab f i) | _ => Nat.max (length (tab f i)) (k + length rows) end) /\
    forall q, nth q (tab f' i) (empty_row ls i) = if (k <=? q) && (q <? k + length rows) then nth (q - k) rows (empty_row ls i) else nth q (tab f i) (empty_row ls i).
Proof.
  induction rows as [|r rows IH]; intros f k W Hi Hn Fr; cbn [add_rows].
  - exists f. repeat (split; [reflexivity || exact W|]). intros q. cbn [length]. destruct (Nat.leb_spec k q), (Nat.ltb_spec q (k + 0)); cbn [andb]; try reflexivity; lia.
  - inversion Fr as [|? ? Hr Fr']; subst. rewrite Hr, Nat.eqb_refl. destruct (add_one names ls f i axis k r W Hi Hn Hr) as (f1 & E1 & B1 & W1 & O1 & L1 & N1). rewrite E1. cbn [obind].
    destruct (IH f1 (S k) W1 Hi Hn Fr') as (f2 & E2 & B2 & W2 & O2 & L2 & N2). exists f2. split; [exact E2|]. split; [congruence|]. split; [exact W2|]. split; [intros j Hj; rewrite O2, O1 by exact Hj; reflexivity|].
    cbn [length]. split; [rewrite L2, L1; destruct rows; cbn [length]; lia|]. intros q. rewrite N2, N1.
    destruct (Nat.eqb_spec q k) as [->|Nq].
    + replace (S k <=? k) with false by (symmetry; apply Nat.leb_gt; lia). cbn [andb]. rewrite Nat.leb_refl. replace (k <? k + S (length rows)) with true by (symmetry; apply Nat.ltb_lt; lia). rewrite Nat.sub_diag. reflexivity.
    + destruct (Nat.leb_spec (S k) q) as [G|G].
      * replace (k <=? q) with true by (symmetry; apply Nat.leb_le; lia). cbn [andb]. replace (k + S (length rows)) with (S k + length rows) by lia. destruct (q <? S k + length rows); [|reflexivity]. replace (q - k) with (S (q - S k)) by lia. reflexivity.
      * replace (k <=? q) with false by (symmetry; apply Nat.leb_gt; lia). reflexivity.
Qed.
Definition reread (t fresh : list (list C)) (e : list C) (f' : list (list C)) : Prop :=
  length f' = Nat.max (length fresh) (length t) /\ forall q, nth q f' e = if q <? length t then nth q t e else nth q fresh e.
Lemma add_tables_ok names ls ts : length ts = length names -> (forall i, Forall (fun r => length r = wide ls i) (nth i ts [])) -> (forall i, i < length names -> ci_compare (nth i names []) (nth i names []) = Eq) ->
  forall done rest f, names = done ++ rest -> hwf names ls f ->
  exists f', add_tables blank f rest (skipn (length done) ls) (skipn (length done) ts) = Ok f' /\ body f' = body f /\ hwf names ls f' /\ (forall j, j < length done -> nth j (heads f') no_head = nth j (heads f) no_head) /\
    forall j, length done <= j < length names -> reread (nth j ts []) (tab f j) (empty_row ls j) (tab f' j).
Proof.
  intros Lt Fw Hrefl done rest. revert done. induction rest as [|n rest IH]; intros done f En W; cbn [add_tables].
  - exists f. split; [reflexivity|]. split; [reflexivity|]. split; [exact W|]. split; [reflexivity|]. rewrite En, app_nil_r. lia.
  - assert (Ld : length names = length done + S (length rest)) by (rewrite En, app_length; reflexivity). assert (Ll : length ls = length names) by apply W.
    set (i := length done) in *. assert (Hi : i < length names) by lia.
    assert (Es : forall (X : Type) (l : list X) d, length l = length names -> skipn i l = nth i l d :: skipn (S i) l).
    { intros X l d H. clear - H Hi. revert l H. generalize (length names) Hi. clear. induction i as [|i IH]; intros m Hm [|x l] H; cbn in *; try lia; [reflexivity|]. apply (IH (pred m)); lia. }
    rewrite (Es _ ts [] Lt), (Es _ ls [] Ll).
    assert (En' : nth i names [] = n) by (rewrite En; unfold i; rewrite app_nth2 by lia; rewrite Nat.sub_diag; reflexivity).
    destruct (add_rows_ok names ls i n (nth i ts []) f 0 W Hi) as (f1 & E1 & B1 & W1 & O1 & L1 & N1); [rewrite <- En'; apply Hrefl; exact Hi|apply Fw|]. unfold wide in E1 at 1. rewrite E1. cbn [obind].
    destruct (IH (done ++ [n]) f1) as (f2 & E2 & B2 & W2 & P2 & Q2); [rewrite <- app_assoc; exact En|exact W1|]. rewrite app_length in *. cbn [length] in *. fold i in E2, P2, Q2. rewrite Nat.add_1_r in *.
    exists f2. split; [exact E2|]. split; [congruence|]. split; [exact W2|]. split; [intros j Hj; rewrite P2 by lia; apply O1; lia|].
    intros j Hj. destruct (Nat.eq_dec j i) as [->|Nj].
    + unfold reread. assert (Et : tab f2 i = tab f1 i) by (unfold tab; rewrite P2 by lia; reflexivity). rewrite Et. split; [rewrite L1; destruct (nth i ts []); cbn [length]; lia|].
      intros q. rewrite N1. cbn [Nat.leb andb Nat.add]. rewrite Nat.sub_0_r. reflexivity.
    + assert (Et : tab f1 j = tab f j) by (unfold tab; rewrite O1 by exact Nj; reflexivity). rewrite <- Et. apply Q2. lia.
Qed.
End H.

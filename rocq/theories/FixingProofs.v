From Coq Require Import String Ascii ZArith List Bool Lia Sorted.
From Verif Require Import Base StringModel StringSpec StringProofs OMap RepoModel RepoSpec RepoProofs GlobalModel GlobalSpec.
Import ListNotations.
Open Scope Z_scope.

Section Fixings.
  Context {N T St : Type}.
  Variable cmp : T -> T -> comparison.
  Hypothesis Hord : total_order cmp.
  Let anti := proj1 Hord.
  Let trans := proj1 (proj2 Hord).
  Let eq_l := proj2 (proj2 Hord).
  Notation put := (fun (m : omap T N) p => massign cmp m (fst p) (snd p)).

  Lemma fold_sorted l : forall m, msorted cmp m -> msorted cmp (fold_left put l m).
  Proof. induction l as [|p l IH]; intros m H; [exact H|]. apply IH. apply (massign_sorted cmp anti trans). exact H. Qed.
  (** the last value of the list for a time, if there is one *)
  Fixpoint latest (l : list (T * N)) (t : T) : option N :=
    match l with [] => None | p :: r => match latest r t with Some x => Some x | None => match cmp (fst p) t with Eq => Some (snd p) | _ => None end end end.
  Lemma fold_find l : forall m t, msorted cmp m -> mfind cmp (fold_left put l m) t = match latest l t with Some x => Some x | None => mfind cmp m t end.
  Proof.
    induction l as [|p l IH]; intros m t H; [reflexivity|]. cbn [fold_left latest].
    rewrite IH by (apply (massign_sorted cmp anti trans); exact H). destruct (latest l t); [reflexivity|].
    rewrite (mfind_massign cmp anti eq_l) by exact H. destruct (cmp (fst p) t); reflexivity.
  Qed.
  Lemma latest_app a b t : latest (a ++ b) t = match latest b t with Some x => Some x | None => latest a t end.
  Proof. induction a as [|p a IH]; cbn [app latest]; [destruct (latest b t); reflexivity|]. rewrite IH. destruct (latest b t); reflexivity. Qed.
  Lemma latest_some l t x : latest l t = Some x -> exists a u b, l = a ++ (u, x) :: b /\ cmp u t = Eq /\ forall u' x', In (u', x') b -> cmp u' t <> Eq.
  Proof.
    induction l as [|[u y] l IH]; cbn [latest fst snd]; [discriminate|]. destruct (latest l t) as [z|] eqn:E.
    - intros H. injection H as ->. destruct (IH eq_refl) as (a & u' & b & -> & H1 & H2). exists ((u, y) :: a), u', b. auto.
    - destruct (cmp u t) eqn:E2; intros H; try discriminate. injection H as ->. exists [], u, l. split; [reflexivity|]. split; [exact E2|].
      clear IH. intros u' x' Hin He. induction l as [|[v z] l IHl]; [destruct Hin|]. cbn [latest fst snd] in E. destruct (latest l t) eqn:E3; [discriminate|].
      destruct Hin as [Hin|Hin]; [injection Hin as -> ->; rewrite He in E; discriminate|]. apply IHl; auto.
  Qed.
  Lemma latest_none l t : latest l t = None <-> forall u x, In (u, x) l -> cmp u t <> Eq.
  Proof.
    induction l as [|[v z] l IH]; cbn [latest fst snd In]; [split; [intros _ u x []|reflexivity]|]. split.
    - destruct (latest l t); [discriminate|]. destruct (cmp v t) eqn:E; [discriminate| |]; intros _ u x [H|H]; try (injection H as -> ->; congruence); apply (proj1 IH eq_refl u x H).
    - intros H. rewrite (proj2 IH) by (intros u x Hi; apply (H u x); auto). destruct (cmp v t) eqn:E; try reflexivity. exfalso. apply (H v z); auto.
  Qed.
  Lemma latest_split a u x b t : cmp u t = Eq -> (forall u' x', In (u', x') b -> cmp u' t <> Eq) -> latest (a ++ (u, x) :: b) t = Some x.
  Proof. intros H1 H2. rewrite latest_app. cbn [latest fst snd]. rewrite (proj2 (latest_none b t) H2), H1. reflexivity. Qed.
  Lemma latest_sorted (l : omap T N) t : msorted cmp l -> latest l t = mfind cmp l t.
  Proof.
    intros H. destruct (latest l t) as [x|] eqn:E.
    - apply latest_some in E as (a & u & b & -> & H1 & _). symmetry. apply (in_mfind cmp anti eq_l _ u x); [exact H|apply in_or_app; right; left; reflexivity|exact H1].
    - destruct (mfind cmp l t) as [x|] eqn:E2; [|reflexivity]. apply mfind_in in E2 as (u & H1 & H2). exfalso. exact (proj1 (latest_none l t) E u x H1 H2).
  Qed.

  Variable of_bool : bool -> N.
  Lemma read_rows_ok (l : list (T * N)) : read_rows of_bool (map (fun p => [CTime (fst p); CNum (snd p)]) l) = Ok l.
  Proof. induction l as [|[t x] l IH]; [reflexivity|]. cbn [map fst snd read_rows to_time to_num obind]. rewrite IH. reflexivity. Qed.
  Lemma rows_nonempty (l : list (T * N)) : l <> [] -> is_empty (map (fun p => [CTime (fst p); CNum (snd p)]) l : table N T) = false.
  Proof. destruct l; [congruence|reflexivity]. Qed.
  Variable minus_inf : N.
  Lemma fix_find_ok (l : omap T N) t quiet : msorted cmp l -> fix_find cmp minus_inf l t quiet =
    match mfind cmp l t with Some x => Ok x | None => if quiet then Ok minus_inf else Throw end.
  Proof.
    induction l as [|[u x] l IH]; intros H; [reflexivity|]. cbn [fix_find mfind]. apply sorted_inv in H as [Hs Hf].
    destruct (cmp u t) eqn:E; [reflexivity|apply IH; exact Hs|]. rewrite (mfind_above cmp anti); [reflexivity|].
    assert (L : cmp t u = Lt) by (rewrite anti, E; reflexivity).
    eapply Forall_impl; [|exact Hf]. unfold below. cbn. intros p Hp. eapply trans; [exact L|exact Hp].
  Qed.

  Variable get : St -> str -> outcome (table N T).
  Variable set : St -> str -> table N T -> St.
  Variable ok : St -> Prop.
  Hypothesis Hkeeps : keeps get set ok.

  Definition all_fixings (old new : list (T * N)) : omap T N := fold_left put (old ++ new) [].
  Lemma all_nonempty old new : new <> [] -> all_fixings old new <> [].
  Proof.
    intros H E. destruct new as [|p new]; [congruence|].
    assert (F : mfind cmp (all_fixings old (p :: new)) (fst p) <> None).
    { unfold all_fixings. rewrite fold_find by constructor. rewrite latest_app. cbn [latest].
      destruct (latest new (fst p)); [discriminate|]. rewrite (cmp_refl cmp anti). discriminate. }
    rewrite E in F. apply F. reflexivity.
  Qed.

  Definition call (s : St) (c : storing) : outcome (St * Z) := store_fixings cmp get set of_bool s (st_index c) (st_fixings c) (st_append c).
  (** the state of the stored histories after calls [l] *)
  Definition tracks (s : St) (l : list storing) : Prop :=
    ok s /\ forall index, ~ In "~"%char index -> exists h, fix_history get of_bool s index = Ok h /\ msorted cmp h /\
      forall t v, recorded cmp index t l v -> mfind cmp h t = v.

  Lemma prefix_same a b : same_up_to_case (fix_prefix ++ a) (fix_prefix ++ b) <-> same_up_to_case a b.
  Proof.
    split; [|intros H; apply Forall2_app; [apply same_refl|exact H]]. unfold fix_prefix. cbn [lit list_ascii_of_string app]. intros H.
    repeat (match goal with H : same_up_to_case (_ :: _) _ |- _ => inversion H; clear H; subst end;
      match goal with H : Forall2 same_letter ?a ?b |- _ => change (same_up_to_case a b) in H end). assumption.
  Qed.
  Lemma prefix_tilde a : ~ In "~"%char a -> ~ In "~"%char (fix_prefix ++ a).
  Proof. intros H Hi. apply in_app_iff in Hi as [Hi|Hi]; [|contradiction]. cbn in Hi. repeat destruct Hi as [Hi|Hi]; try discriminate; auto. Qed.

  Lemma recorded_snoc index t l c v : recorded cmp index t (l ++ [c]) v ->
    (~ same_up_to_case (st_index c) index /\ recorded cmp index t l v) \/
    (same_up_to_case (st_index c) index /\
      match latest (st_fixings c) t with Some x => v = Some x | None => if st_append c then recorded cmp index t l v else v = None end).
  Proof.
    intros H. inversion H as [E|l' c' v' Hd Hr E|l' c' a u x b Hs Hf Hu Hb E|l' c' v' Hs Ha Hn Hr E|l' c' Hs Ha Hn E].
    - destruct l; discriminate.
    - apply app_inj_tail in E as [-> ->]. auto.
    - apply app_inj_tail in E as [-> ->]. right. split; [exact Hs|]. rewrite Hf, (latest_split a u x b t Hu Hb). reflexivity.
    - apply app_inj_tail in E as [-> ->]. right. split; [exact Hs|]. rewrite (proj2 (latest_none _ _) Hn), Ha. exact Hr.
    - apply app_inj_tail in E as [-> ->]. right. split; [exact Hs|]. rewrite (proj2 (latest_none _ _) Hn), Ha. reflexivity.
  Qed.
  Lemma recorded_same index index' t (l : list (@storing N T)) v : same_up_to_case index index' -> recorded cmp index t l v -> recorded cmp index' t l v.
  Proof.
    intros E. induction 1 as [|l c v Hd Hr IH|l c a u x b Hs Hf Hu Hb|l c v Hs Ha Hn Hr IH|l c Hs Ha Hn].
    - constructor.
    - apply rec_other; [|exact IH]. intros X. apply Hd. eapply same_trans; [exact X|apply same_sym; exact E].
    - eapply rec_new; eauto using same_trans.
    - apply rec_old; eauto using same_trans.
    - apply rec_dropped; eauto using same_trans.
  Qed.
  Lemma recorded_total index t (l : list (@storing N T)) : exists v, recorded cmp index t l v.
  Proof.
    induction l as [|c l IH] using rev_ind; [exists None; constructor|]. destruct IH as [v IH].
    destruct (ci_eqb (st_index c) index) eqn:E.
    - apply ci_eqb_iff in E. destruct (latest (st_fixings c) t) as [x|] eqn:L.
      + apply latest_some in L as (a & u & b & H1 & H2 & H3). exists (Some x). eapply rec_new; eauto.
      + pose proof (proj1 (latest_none _ _) L) as Hn. destruct (st_append c) eqn:Ea; [exists v; apply rec_old; auto|exists None; apply rec_dropped; auto].
    - exists v. apply rec_other; [|exact IH]. intros X. apply ci_eqb_iff in X. congruence.
  Qed.
  Lemma call_tracks s l c : tracks s l -> ~ In "~"%char (st_index c) -> st_fixings c <> [] ->
    exists s' n h, call s c = Ok (s', n) /\ tracks s' (l ++ [c]) /\ fix_history get of_bool s' (st_index c) = Ok h /\ n = Z.of_nat (length h).
  Proof.
    intros [Hok Ht] Hi Hne. destruct Hkeeps as (K1 & K2 & K3). unfold call, store_fixings.
    assert (O : exists old, (if st_append c then fix_history get of_bool s (st_index c) else Ok []) = Ok old /\ msorted cmp old /\
      (st_append c = true -> fix_history get of_bool s (st_index c) = Ok old) /\ (st_append c = false -> old = [])).
    { destruct (st_append c).
      - destruct (Ht _ Hi) as (h & H1 & H2 & _). exists h. repeat split; auto. discriminate.
      - exists []. repeat split; auto; [constructor|discriminate]. }
    destruct O as (old & -> & So & O1 & O2). cbn [obind]. change (fold_left put (old ++ st_fixings c) []) with (all_fixings old (st_fixings c)).
    pose proof (all_nonempty old _ Hne) as Hall. pose proof (rows_nonempty _ Hall) as Hrows. set (all := all_fixings old (st_fixings c)) in *.
    assert (Sall : msorted cmp all) by (apply fold_sorted; constructor).
    assert (Hget : forall index, same_up_to_case (st_index c) index ->
      fix_history get of_bool (set s (fix_prefix ++ st_index c) (map (fun p => [CTime (fst p); CNum (snd p)]) all)) index = Ok all).
    { intros index Hs. unfold fix_history. rewrite K2; [|exact Hok|apply prefix_tilde; exact Hi|exact Hrows|apply prefix_same; exact Hs].
      cbn [obind]. rewrite Hrows. apply read_rows_ok. }
    eexists. eexists. exists all. split; [reflexivity|]. split; [|split; [apply Hget, same_refl|reflexivity]].
    split; [apply K1; [exact Hok|apply prefix_tilde; exact Hi|exact Hrows]|].
    intros index Hidx. destruct (ci_eqb (st_index c) index) eqn:E.
    - apply ci_eqb_iff in E. exists all. split; [apply Hget; exact E|]. split; [exact Sall|]. intros t v Hr.
      apply recorded_snoc in Hr as [[Hd _]|[_ Hr]]; [exfalso; exact (Hd E)|]. unfold all, all_fixings. rewrite fold_find by constructor.
      rewrite latest_app. destruct (latest (st_fixings c) t); [congruence|]. rewrite latest_sorted by exact So. cbn [mfind].
      destruct (st_append c) eqn:Ea; [|rewrite (O2 eq_refl); cbn; congruence].
      destruct (Ht _ Hi) as (h & H1 & H2 & H3). rewrite (O1 eq_refl) in H1. injection H1 as <-.
      rewrite (H3 t v (recorded_same _ _ _ _ _ (same_sym _ _ E) Hr)). destruct v; reflexivity.
    - assert (Hd : ~ same_up_to_case (st_index c) index) by (intros X; apply ci_eqb_iff in X; congruence).
      destruct (Ht _ Hidx) as (h & H1 & H2 & H3). exists h. split; [|split; [exact H2|]].
      + unfold fix_history in *. rewrite K3; auto using prefix_tilde. intros X. apply (prefix_same (st_index c) index) in X. exact (Hd X).
      + intros t v Hr. apply recorded_snoc in Hr as [[_ Hr]|[Hs _]]; [auto|exfalso; exact (Hd Hs)].
  Qed.
End Fixings.

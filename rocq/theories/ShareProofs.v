From Coq Require Import String Ascii ZArith List Bool Lia Sorted DecimalString DecimalZ.
From Verif Require Import Base DateModel StringModel StringSpec StringProofs OMap DictModel DictSpec DictProofs SplatModel SplatSpec SplatProofs ShareModel ShareSpec.
Import ListNotations.
Open Scope Z_scope.

(** * Tags *)
Definition digitish (c : ascii) : Prop := code c < 65 /\ c <> "~"%char.
Lemma uint_digitish u : Forall digitish (list_ascii_of_string (NilEmpty.string_of_uint u)).
Proof. induction u; cbn; constructor; auto; split; (reflexivity || discriminate). Qed.
Lemma show_int_digitish z : Forall digitish (show_int z).
Proof.
  assert (forall u, Forall digitish (list_ascii_of_string (NilZero.string_of_uint u))) as H.
  { destruct u; cbn; repeat constructor; try discriminate; apply uint_digitish. }
  unfold show_int. destruct (Z.to_int z) as [u|u]; cbn [NilZero.string_of_int]; [apply H|].
  cbn [list_ascii_of_string]. constructor; [split; [reflexivity|discriminate]|apply H].
Qed.
Lemma to_int_not_nil z : Z.to_int z <> Decimal.Pos Decimal.Nil /\ Z.to_int z <> Decimal.Neg Decimal.Nil.
Proof.
  split; intros H; pose proof (of_to z) as G; rewrite H in G; cbn in G; subst z; discriminate.
Qed.
Lemma show_int_inj a b : show_int a = show_int b -> a = b.
Proof.
  unfold show_int. intros H. apply (f_equal string_of_list_ascii) in H. rewrite !string_of_list_ascii_of_string in H.
  apply (f_equal NilZero.int_of_string) in H. destruct (to_int_not_nil a), (to_int_not_nil b).
  rewrite !NilZero.isi in H by assumption. injection H as H. rewrite <- (of_to a), <- (of_to b). now rewrite H.
Qed.
Lemma same_digitish a : forall b, Forall digitish a -> Forall digitish b -> same_up_to_case a b -> a = b.
Proof.
  induction a as [|c a IH]; intros b Ha Hb H; inversion H; subst; [reflexivity|].
  inversion Ha as [|? ? [Hc _] Ha']; inversion Hb as [|? ? [Hd _] Hb']; subst. f_equal; [|now apply IH].
  pose proof (code_range c). pose proof (code_range y). apply code_inj.
  match goal with X : same_letter _ _ |- _ => destruct X as [X|[X|X]] end; [assumption| |];
    rewrite Z.mod_small in * by lia; lia.
Qed.
Lemma number_tag_same i j : same_up_to_case ("$"%char :: show_int i) ("$"%char :: show_int j) -> i = j.
Proof. intros H. apply show_int_inj. inversion H; subst. apply same_digitish; auto using show_int_digitish. Qed.
Lemma number_tag_ok i : tag_ok ("$"%char :: show_int i).
Proof.
  right. eexists. split; [reflexivity|]. intros H. pose proof (show_int_digitish i) as G. rewrite Forall_forall in G. apply G in H.
  destruct H. congruence.
Qed.

Fixpoint tags_ok (s : tags) : Prop :=
  match s with [] => True | (b, t) :: r => t = new_tag r /\ tag_for r b = None /\ tags_ok r end.
Lemma tag_for_in s a t : tag_for s a = Some t -> In (a, t) s.
Proof.
  induction s as [|[b u] s IH]; [discriminate|]. cbn [tag_for]. destruct (Nat.eqb a b) eqn:E.
  - intros H. injection H as ->. apply Nat.eqb_eq in E as ->. now left.
  - intros H. right. auto.
Qed.
Lemma tag_for_none s a t : tag_for s a = None -> ~ In (a, t) s.
Proof.
  induction s as [|[b u] s IH]; [intros _ []|]. cbn [tag_for]. destruct (Nat.eqb a b) eqn:E; [discriminate|].
  intros H [G|G]; [injection G as -> ->; rewrite Nat.eqb_refl in E; discriminate|]. now apply IH.
Qed.
Lemma tags_number s : tags_ok s -> forall x t, In (x, t) s -> exists i, 1 <= i <= zlen s /\ t = "$"%char :: show_int i.
Proof.
  induction s as [|[b u] s IH]; [intros _ x t []|]. intros (H1 & H2 & H3) x t Hin. unfold zlen in *. cbn [length].
  destruct Hin as [G|G].
  - injection G as <- <-. exists (1 + zlen s). split; [unfold zlen; lia|exact H1].
  - destruct (IH H3 x t G) as (i & Hi & Ht). exists i. split; [lia|exact Ht].
Qed.
Lemma tags_inj s : tags_ok s -> forall x y t u, In (x, t) s -> In (y, u) s -> same_up_to_case t u -> x = y /\ t = u.
Proof.
  induction s as [|[b v] s IH]; [intros _ x y t u []|]. intros (H1 & H2 & H3) x y t u Hx Hy Hs.
  assert (forall z w, In (z, w) s -> ~ same_up_to_case w v /\ ~ same_up_to_case v w) as Hne.
  { intros z w Hz. destruct (tags_number s H3 z w Hz) as (i & Hi & ->). rewrite H1. unfold new_tag.
    split; intros G; apply number_tag_same in G; lia. }
  destruct Hx as [Hx|Hx], Hy as [Hy|Hy].
  - injection Hx as <- <-. injection Hy as <- <-. auto.
  - injection Hx as <- <-. apply Hne in Hy. tauto.
  - injection Hy as <- <-. apply Hne in Hx. tauto.
  - eapply IH; eauto.
Qed.
Lemma tags_fun s : tags_ok s -> forall x t u, In (x, t) s -> In (x, u) s -> t = u.
Proof.
  induction s as [|[b v] s IH]; [intros _ x t u []|]. intros (H1 & H2 & H3) x t u Hx Hy.
  destruct Hx as [Hx|Hx], Hy as [Hy|Hy].
  - congruence.
  - injection Hx as <- <-. exfalso. eapply tag_for_none; eauto.
  - injection Hy as <- <-. exfalso. eapply tag_for_none; eauto.
  - eapply IH; eauto.
Qed.
Lemma new_tag_fresh s : tags_ok s -> forall x u, In (x, u) s -> ~ same_up_to_case u (new_tag s).
Proof.
  intros H x u Hin G. destruct (tags_number s H x u Hin) as (i & Hi & ->). unfold new_tag in G. apply number_tag_same in G. lia.
Qed.

(** * The child map *)
Section Children.
Context {N T : Type}.
Notation node := (node N T).
Notation distinct := (ForallOrdPairs (fun p q : str * node => ~ same_up_to_case (fst p) (fst q))).
Lemma child_map_ok (l : list (str * node)) : distinct l ->
  msorted ci_compare (child_map l) /\ (forall p, In p (child_map l) <-> In p l).
Proof.
  unfold child_map. intros Hd.
  assert (forall l acc, msorted ci_compare acc -> distinct l ->
    (forall p q, In p acc -> In q l -> ~ same_up_to_case (fst p) (fst q)) ->
    let m := fold_left (fun m p => massign ci_compare m (fst p) (snd p)) l acc in
    msorted ci_compare m /\ forall p, In p m <-> In p acc \/ In p l) as G.
  { clear l Hd. induction l as [|[n k] l IH]; intros acc Hs Hd Hx; cbn [fold_left].
    - split; [exact Hs|]. intros p. cbn [In]. tauto.
    - inversion Hd as [|? ? Hn Hd']; subst. cbn [fst snd].
      assert (mfind ci_compare acc n = None) as Hf.
      { destruct (mfind ci_compare acc n) as [w|] eqn:E; [|reflexivity]. apply mfind_in in E as (x & Hx1 & Hx2). exfalso.
        apply (Hx (x, w) (n, k) Hx1 (or_introl eq_refl)). now apply ci_compare_eq. }
      destruct (minsert_new ci_compare ci_compare_antisym acc n k Hf Hs) as (a & b & Ea & _ & Em).
      assert (forall p, In p (massign ci_compare acc n k) <-> In p acc \/ p = (n, k)) as Hin.
      { intros p. rewrite Em, Ea, !in_app_iff. cbn [In]. intuition. }
      destruct (IH (massign ci_compare acc n k)) as [I1 I2].
      + apply massign_sorted; auto using ci_compare_antisym. exact ci_compare_lt_trans.
      + exact Hd'.
      + intros p q Hp Hq. apply Hin in Hp as [Hp|Hp]; [apply Hx; [assumption|now right]|]. subst p. rewrite Forall_forall in Hn. now apply Hn.
      + split; [exact I1|]. intros p. rewrite I2, Hin. cbn [In]. intuition. }
  destruct (G l [] (SSorted_nil _) Hd) as [G1 G2]; [intros p q []|]. split; [exact G1|]. intros p. rewrite G2. cbn [In]. tauto.
Qed.
End Children.

(** * Writing and reading run side by side *)
Section Sim.
Context {N T : Type}.
Variable heap : nat -> object N T.
Variable schema : str -> option (list (str * kind)).
Variable rank : nat -> nat.
Variable live : nat -> Prop.
Hypothesis Hgood : forall a, live a -> archivable schema (heap a).
Hypothesis Hdown : forall a n b, live a -> In (n, MRef b) (members (heap a)) -> live b /\ (rank b < rank a)%nat.

Lemma handle_for_same kn t u : same_up_to_case t u -> handle_for kn t = handle_for kn u.
Proof.
  intros H. induction kn as [|[x h] kn IH]; [reflexivity|]. cbn [handle_for]. rewrite IH.
  replace (ci_eqb x u) with (ci_eqb x t); [reflexivity|]. apply eq_true_iff_eq. rewrite !ci_eqb_iff.
  split; intros G; eapply same_trans; eauto using same_sym.
Qed.
Definition cp (s : tags) (kn : known) (a h : nat) : Prop := exists t, In (a, t) s /\ handle_for kn t = Some h.
Record Inv (s : tags) (kn : known) (b : built N T) (bound : nat) : Prop := {
  i1 : forall x t, In (x, t) s -> (rank x < bound)%nat -> exists h, handle_for kn t = Some h;
  i2 : forall x t h, In (x, t) s -> handle_for kn t = Some h ->
         exists o, nth_error b h = Some o /\ otype o = otype (heap x) /\
                   Forall2 (member_copy (cp s kn)) (members (heap x)) (members o);
  i3 : forall x t y u h, In (x, t) s -> In (y, u) s -> handle_for kn t = Some h -> handle_for kn u = Some h -> x = y;
  i4 : forall t h, handle_for kn t = Some h -> exists x u, In (x, u) s /\ same_up_to_case u t }.

Lemma member_copy_mono (c c' : nat -> nat -> Prop) (p q : str * member N T) : (forall a h, c a h -> c' a h) -> member_copy c p q -> member_copy c' p q.
Proof. intros H [H1 H2]. split; [exact H1|]. destruct (snd p), (snd q); auto. Qed.
Lemma copies_mono (c c' : nat -> nat -> Prop) l m : (forall a h, c a h -> c' a h) -> Forall2 (@member_copy N T c) l m -> Forall2 (member_copy c') l m.
Proof. intros H. induction 1; constructor; eauto using member_copy_mono. Qed.
Lemma cp_mono s kn s' kn' : (forall p, In p s -> In p s') -> (forall t h, handle_for kn t = Some h -> handle_for kn' t = Some h) ->
  forall a h, cp s kn a h -> cp s' kn' a h.
Proof. intros H1 H2 a h (t & G1 & G2). exists t. auto. Qed.

Definition visible (g : grid N T) (v : view) (l : list (str * node N T)) : Prop :=
  forall n k, In (n, k) l -> exists v', child g v n = Ok v' /\ shows g v' k.
Definition reads_back (fuel : nat) (r : list (str * member N T)) (s : tags) (l : list (str * node N T)) (s' : tags) (bound : nat) : Prop :=
  forall g v kn b, visible g v l -> Inv s kn b bound ->
  exists ml kn' b', read_members schema fuel g v (map (fun p => (fst p, kind_of (snd p))) r) kn b = Ok (ml, kn', b') /\
    Inv s' kn' b' bound /\ Forall2 (member_copy (cp s' kn')) r ml /\
    (forall t h, handle_for kn t = Some h -> handle_for kn' t = Some h) /\ (exists b2, b' = b ++ b2) /\
    (forall t h, handle_for kn' t = Some h -> handle_for kn t = Some h \/ exists x u, In (x, u) s' /\ ~ In (x, u) s /\ same_up_to_case u t).
Definition well_written (bound : nat) (r : list (str * member N T)) (s : tags) (l : list (str * node N T)) (s' : tags) : Prop :=
  tags_ok s' /\ (exists new, s' = new ++ s /\ forall x t, In (x, t) new -> live x /\ (rank x < bound)%nat) /\
  map fst l = map fst r /\ Forall (fun p => fst p <> [] /\ wf (snd p)) l.
Definition fine (bound : nat) (r : list (str * member N T)) : Prop :=
  (forall n b, In (n, MRef b) r -> live b /\ (rank b < bound)%nat) /\ Forall (fun p => fst p <> [] /\ readable (snd p)) r.
Lemma fine_tail bound p r : fine bound (p :: r) -> fst p <> [] /\ readable (snd p) /\ fine bound r.
Proof.
  intros [H1 H2]. inversion H2 as [|? ? [H3 H4] H5]; subst. repeat split; auto.
  - apply (H1 n). now right.
  - apply (H1 n). now right.
Qed.
Lemma fine_members a : live a -> fine (rank a) (members (heap a)).
Proof. intros H. split; [intros n b Hb; exact (Hdown a n b H Hb)|]. apply (Hgood a H). Qed.

Lemma table_wf (m : member N T) : readable m -> (forall a, m <> MRef a) -> wf (table m : node N T).
Proof.
  destruct m as [c|c l|m|a]; intros H Hn; cbn [table].
  - constructor; [lia|discriminate|repeat constructor].
  - constructor; [unfold zlen; cbn [length]; lia|discriminate|repeat constructor].
  - destruct H as (w & H1 & H2 & H3 & _). destruct m as [|x m]; [congruence|]. cbn [hd].
    inversion H3; subst. constructor; [assumption|discriminate|assumption].
  - exfalso. now apply (Hn a).
Qed.
Lemma table_read (m : member N T) g v : readable m -> (forall a, m <> MRef a) -> shows g v (table m : node N T) -> read_table (kind_of m) g v = Ok m.
Proof.
  destruct m as [c|c l|m|a]; intros H Hn Hs; cbn [table] in Hs.
  - inversion Hs as [? ? ? (G1 & _)|]; subst. cbn [kind_of read_table]. now rewrite (G1 c eq_refl).
  - inversion Hs as [? ? ? (_ & G1 & _)|]; subst. cbn [kind_of read_table]. now rewrite (G1 c l eq_refl H).
  - inversion Hs as [? ? ? (_ & _ & G1 & _)|]; subst. cbn [kind_of read_table].
    destruct H as (w & H1 & H2 & H3 & H4). destruct m as [|x m]; [congruence|]. cbn [hd] in *. inversion H3; subst. now rewrite (G1 H4).
  - exfalso. now apply (Hn a).
Qed.

Lemma read_value_step fuel (g : grid N T) v n (m : member N T) r kn b : (forall a, m <> MRef a) ->
  read_members schema fuel g v (map (fun p => (fst p, kind_of (snd p))) ((n, m) :: r)) kn b =
  (do v' <- child g v n; do x <- read_table (kind_of m) g v';
   do (q2, b2) <- read_members schema fuel g v (map (fun p => (fst p, kind_of (snd p))) r) kn b;
   let '(ml, kn2) := q2 in Ok ((n, x) :: ml, kn2, b2)).
Proof. intros Hn. destruct m; destruct fuel; try reflexivity; exfalso; eapply Hn; reflexivity. Qed.
Lemma write_value_step fuel n (m : member N T) r s : (forall a, m <> MRef a) ->
  write_members heap fuel ((n, m) :: r) s = do (x, s') <- write_members heap fuel r s; Ok ((n, table m) :: x, s').
Proof. intros Hn. destruct m; destruct fuel; try reflexivity; exfalso; eapply Hn; reflexivity. Qed.
Definition deeper (fuel : nat) (g : grid N T) (v : view) :=
  match fuel with O => fun _ _ _ => OutOfFuel | S f => read_members schema f g v end.
Lemma read_ref_step fuel (g : grid N T) v n a r kn b :
  read_members schema fuel g v (map (fun p : str * member N T => (fst p, kind_of (snd p))) ((n, MRef a) :: r)) kn b =
  (do v' <- child g v n;
   do (q, b1) <- extract schema (deeper fuel g v') g v' kn b;
   let '(h, kn1) := q in
   do (q2, b2) <- read_members schema fuel g v (map (fun p => (fst p, kind_of (snd p))) r) kn1 b1;
   let '(ml, kn2) := q2 in Ok ((n, MRef h) :: ml, kn2, b2)).
Proof. destruct fuel; reflexivity. Qed.
Lemma write_ref_step fuel n a r s :
  write_members heap fuel ((n, MRef a) :: r) s =
  match tag_for s a with
  | Some t => do (x, s') <- write_members heap fuel r s; Ok ((n, Leaf 1 [[CStr t]]) :: x, s')
  | None =>
      match fuel with
      | O => OutOfFuel
      | S f =>
          do (y, s1) <- write_members heap f (members (heap a)) ((a, new_tag s) :: s);
          do (x, s') <- write_members heap fuel r s1;
          Ok ((n, Obj (new_tag s) (otype (heap a)) (child_map y)) :: x, s')
      end
  end.
Proof. destruct fuel; reflexivity. Qed.

Lemma handle_cons t h kn u : handle_for ((t, h) :: kn) u = if ci_eqb t u then Some h else handle_for kn u.
Proof. reflexivity. Qed.
Lemma new_object_inv s s1 a t kn kn1 b b1 ml bound :
  live a -> tags_ok s1 -> (exists new, s1 = new ++ (a, t) :: s /\ forall x u, In (x, u) new -> live x /\ (rank x < rank a)%nat) ->
  Inv s kn b bound -> Inv s1 kn1 b1 (rank a) -> handle_for kn t = None ->
  (forall u h, handle_for kn u = Some h -> handle_for kn1 u = Some h) ->
  (forall u h, handle_for kn1 u = Some h -> handle_for kn u = Some h \/ exists x w, In (x, w) s1 /\ ~ In (x, w) ((a, t) :: s) /\ same_up_to_case w u) ->
  Forall2 (member_copy (cp s1 kn1)) (members (heap a)) ml ->
  (forall u h, handle_for kn1 u = Some h -> handle_for ((t, length b1) :: kn1) u = Some h) /\
  Inv s1 ((t, length b1) :: kn1) (b1 ++ [Object (otype (heap a)) ml]) bound.
Proof.
  intros La Hok (new & -> & Hnew) I0 I1 Hnone Hmono Hdom Hml.
  assert (In (a, t) (new ++ (a, t) :: s)) as Hat by (apply in_or_app; right; now left).
  assert (forall u, same_up_to_case t u -> handle_for kn1 u = None) as Hn1.
  { intros u Hu. destruct (handle_for kn1 u) as [h|] eqn:E; [|reflexivity]. exfalso. apply Hdom in E as [E|(x & w & H1 & H2 & H3)].
    - rewrite <- (handle_for_same _ _ _ Hu) in E. congruence.
    - destruct (tags_inj _ Hok x a w t H1 Hat) as [-> ->]; [eapply same_trans; [exact H3|now apply same_sym]|]. apply H2. now left. }
  assert (forall u h, handle_for kn1 u = Some h -> handle_for ((t, length b1) :: kn1) u = Some h) as Hm.
  { intros u h H. rewrite handle_cons. destruct (ci_eqb t u) eqn:E; [|exact H]. apply ci_eqb_iff in E. rewrite (Hn1 u E) in H. discriminate. }
  split; [exact Hm|]. split.
  - intros x u Hin Hr. apply in_app_or in Hin as [Hin|[Hin|Hin]].
    + destruct (i1 _ _ _ _ I1 x u) as (h & Hh); [apply in_or_app; now left|apply (Hnew x u Hin)|]. eauto.
    + injection Hin as <- <-. exists (length b1). rewrite handle_cons. now rewrite (proj2 (ci_eqb_iff t t) (same_refl t)).
    + destruct (i1 _ _ _ _ I0 x u Hin Hr) as (h & Hh). eauto.
  - intros x u h Hin Hh. rewrite handle_cons in Hh. destruct (ci_eqb t u) eqn:E.
    + injection Hh as <-. apply ci_eqb_iff in E. destruct (tags_inj _ Hok a x t u Hat Hin E) as [<- <-].
      exists (Object (otype (heap a)) ml). rewrite nth_error_app2, Nat.sub_diag by lia. repeat split.
      cbn [members]. eapply copies_mono; [|exact Hml]. apply cp_mono; auto.
    + destruct (i2 _ _ _ _ I1 x u h Hin Hh) as (o & O1 & O2 & O3). exists o. split; [|split; [exact O2|]].
      * rewrite nth_error_app1; [exact O1|]. apply nth_error_Some. congruence.
      * eapply copies_mono; [|exact O3]. apply cp_mono; auto.
  - assert (forall x u h, In (x, u) (new ++ (a, t) :: s) -> handle_for kn1 u = Some h -> (h < length b1)%nat) as Hlt.
    { intros x u h Hin Hh. destruct (i2 _ _ _ _ I1 x u h Hin Hh) as (o & O1 & _). apply nth_error_Some. congruence. }
    intros x u y w h Hx Hy Hu Hw. rewrite handle_cons in Hu, Hw.
    destruct (ci_eqb t u) eqn:E1, (ci_eqb t w) eqn:E2.
    + apply ci_eqb_iff in E1, E2. destruct (tags_inj _ Hok a x t u Hat Hx E1). destruct (tags_inj _ Hok a y t w Hat Hy E2). congruence.
    + injection Hu as <-. pose proof (Hlt y w _ Hy Hw). lia.
    + injection Hw as <-. pose proof (Hlt x u _ Hx Hu). lia.
    + exact (i3 _ _ _ _ I1 x u y w h Hx Hy Hu Hw).
  - intros u h Hu. rewrite handle_cons in Hu. destruct (ci_eqb t u) eqn:E.
    + apply ci_eqb_iff in E. exists a, t. auto.
    + exact (i4 _ _ _ _ I1 u h Hu).
Qed.
Lemma inv_open s kn b bound a t : Inv s kn b bound -> (rank a <= bound)%nat -> handle_for kn t = None ->
  Inv ((a, t) :: s) kn b (rank a).
Proof.
  intros H0 Hr Hn. split.
  - intros x u [Hx|Hx] Hlt; [injection Hx as <- <-; lia|]. apply (i1 _ _ _ _ H0 x u Hx). lia.
  - intros x u h [Hx|Hx] Hh; [injection Hx as <- <-; congruence|]. destruct (i2 _ _ _ _ H0 x u h Hx Hh) as (o & O1 & O2 & O3).
    exists o. split; [exact O1|]. split; [exact O2|]. eapply copies_mono; [|exact O3]. apply cp_mono; auto. intros p Hp. now right.
  - intros x u y w h [Hx|Hx] [Hy|Hy] Hu Hw.
    + congruence.
    + injection Hx as <- <-. congruence.
    + injection Hy as <- <-. congruence.
    + exact (i3 _ _ _ _ H0 x u y w h Hx Hy Hu Hw).
  - intros u h Hu. destruct (i4 _ _ _ _ H0 u h Hu) as (x & w & G1 & G2). exists x, w. split; [now right|exact G2].
Qed.

Lemma obj_wf a y t : live a -> tag_ok t -> map fst y = map fst (members (heap a)) ->
  Forall (fun p => fst p <> [] /\ wf (snd p)) y ->
  wf (Obj t (otype (heap a)) (child_map y) : node N T) /\
  (forall g v, shows g v (Obj t (otype (heap a)) (child_map y)) -> visible g v y).
Proof.
  intros La Ht Hm Hw. destruct (Hgood a La) as (G1 & G2 & G3 & G4 & G5).
  assert (ForallOrdPairs (fun p q => ~ same_up_to_case (fst p) (fst q)) y) as Hd.
  { clear - Hm G5. revert y Hm. induction G5 as [|[n m] l Hn Hl IH]; intros [|[n' k] y] Hm; try discriminate; constructor.
    - cbn [map fst] in Hm. injection Hm as -> Hm. cbn [fst] in *. rewrite Forall_forall in *. intros [n2 k2] Hin2. cbn [fst].
      assert (In n2 (map fst l)) as Hi by (rewrite <- Hm; apply in_map_iff; exists (n2, k2); auto).
      apply in_map_iff in Hi as ([n3 m3] & <- & Hin3). exact (Hn _ Hin3).
    - cbn [map fst] in Hm. injection Hm as _ Hm. now apply IH. }
  destruct (child_map_ok y Hd) as [S1 S2]. split.
  - constructor; auto.
    + intros E. destruct (members (heap a)) as [|p r] eqn:Em; [congruence|]. destruct y as [|q y]; [discriminate|].
      assert (In q (child_map (q :: y))) as X by (apply S2; now left). rewrite E in X. contradiction.
    + apply Forall_forall. intros p Hp. apply S2 in Hp. rewrite Forall_forall in Hw. now apply Hw.
  - intros g v Hs n k Hin. inversion Hs as [|? ? ? ? T1 T2 T3 T4]; subst.
    destruct (T3 n k n) as (_ & v' & H1 & H2); [now apply S2|apply same_refl|]. eauto.
Qed.

Lemma sim fuel : forall r s l s' bound, write_members heap fuel r s = Ok (l, s') -> tags_ok s -> fine bound r ->
  well_written bound r s l s' /\ reads_back fuel r s l s' bound.
Proof.
  induction fuel as [fuel IHf] using (well_founded_induction Wf_nat.lt_wf).
  induction r as [|[n m] r IHr]; intros s l s' bound Hwr Hok Hfine.
  - assert (Ok ([], s) = Ok (l, s')) as E by (destruct fuel; exact Hwr). injection E as <- <-. split.
    + split; [exact Hok|]. split; [exists []; split; [reflexivity|intros x t []]|]. split; [reflexivity|constructor].
    + intros g v kn b Hv HI. exists [], kn, b. split; [destruct fuel; reflexivity|]. split; [exact HI|]. split; [constructor|]. split; [auto|].
      split; [exists []; now rewrite app_nil_r|]. auto.
  - destruct (fine_tail _ _ _ Hfine) as (Fn & Fr & Fine'). cbn [fst snd] in *.
    assert ((forall a, m <> MRef a) \/ exists a, m = MRef a) as [Hm|[a ->]] by (destruct m; [left|left|left|right; eauto]; discriminate).
    + (* a value *)
      rewrite write_value_step in Hwr by exact Hm.
      destruct (write_members heap fuel r s) as [[x s1]| | |] eqn:Er; cbn [obind] in Hwr; try discriminate. injection Hwr as <- <-.
      destruct (IHr s x s1 bound Er Hok Fine') as [(W1 & W2 & W3 & W4) Hrb]. split.
      * split; [exact W1|]. split; [exact W2|]. split; [cbn [map fst]; now rewrite W3|]. constructor; [|exact W4].
        split; [exact Fn|]. now apply table_wf.
      * intros g v kn b Hv HI. destruct (Hrb g v kn b) as (ml & kn' & b' & R1 & R2 & R3 & R4 & R5 & R6);
          [intros n' k' Hin; apply Hv; now right|exact HI|].
        destruct (Hv n (table m) (or_introl eq_refl)) as (v' & C1 & C2). exists ((n, m) :: ml), kn', b'.
        rewrite read_value_step by exact Hm. rewrite C1. cbn [obind]. rewrite (table_read m g v' Fr Hm C2). cbn [obind]. rewrite R1. cbn [obind].
        split; [reflexivity|]. split; [exact R2|]. split; [|auto]. constructor; [|exact R3]. split; [reflexivity|].
        destruct m; cbn; auto. exfalso. eapply Hm. reflexivity.
    + (* a reference *)
      destruct (proj1 Hfine n a (or_introl eq_refl)) as [La Ra].
      rewrite write_ref_step in Hwr. destruct (tag_for s a) as [t|] eqn:Et.
      * (* written before *)
        destruct (write_members heap fuel r s) as [[x s1]| | |] eqn:Er; cbn [obind] in Hwr; try discriminate. injection Hwr as <- <-.
        destruct (IHr s x s1 bound Er Hok Fine') as [(W1 & (new & W2 & W2') & W3 & W4) Hrb]. apply tag_for_in in Et.
        destruct (tags_number s Hok a t Et) as (i & Hi & Hti). split.
        -- split; [exact W1|]. split; [exists new; auto|]. split; [cbn [map fst]; now rewrite W3|]. constructor; [|exact W4].
           split; [exact Fn|]. cbn [snd]. constructor; [lia|discriminate|repeat constructor].
        -- intros g v kn b Hv HI. destruct (Hrb g v kn b) as (ml & kn' & b' & R1 & R2 & R3 & R4 & R5 & R6);
             [intros n' k' Hin; apply Hv; now right|exact HI|].
           destruct (Hv n _ (or_introl eq_refl)) as (v' & C1 & C2). inversion C2 as [? ? ? (_ & _ & _ & _ & C3)|]; subst.
           specialize (C3 _ eq_refl (number_tag_ok i)). destruct (i1 _ _ _ _ HI a _ Et Ra) as (h & Hh).
           exists ((n, MRef h) :: ml), kn', b'. rewrite read_ref_step, C1. cbn [obind]. unfold extract. rewrite C3. cbn [obind]. rewrite Hh. cbn [obind].
           rewrite R1. cbn [obind]. split; [reflexivity|]. split; [exact R2|]. split; [|auto]. constructor; [|exact R3].
           split; [reflexivity|]. cbn [snd]. exists ("$"%char :: show_int i). split; [apply in_or_app; now right|now apply R4].
      * (* new *)
        destruct fuel as [|f]; [discriminate|].
        destruct (write_members heap f (members (heap a)) ((a, new_tag s) :: s)) as [[y s1]| | |] eqn:Ey; cbn [obind] in Hwr; try discriminate.
        destruct (write_members heap (S f) r s1) as [[x s2]| | |] eqn:Er; cbn [obind] in Hwr; try discriminate. injection Hwr as <- <-.
        assert (tags_ok ((a, new_tag s) :: s)) as Hok1 by (cbn [tags_ok]; auto).
        destruct (IHf f ltac:(lia) _ _ _ _ (rank a) Ey Hok1 (fine_members a La)) as [(V1 & (new1 & V2 & V2') & V3 & V4) Hrb1].
        destruct (IHr s1 x s2 bound Er V1 Fine') as [(W1 & (new2 & W2 & W2') & W3 & W4) Hrb2].
        destruct (obj_wf a y (new_tag s) La (number_tag_ok _) V3 V4) as [Hwf Hvis]. split.
        -- split; [exact W1|]. split.
           { exists (new2 ++ new1 ++ [(a, new_tag s)]). split; [rewrite W2, V2, <- !app_assoc; reflexivity|].
             intros z u Hz. apply in_app_or in Hz as [Hz|Hz]; [exact (W2' z u Hz)|]. apply in_app_or in Hz as [Hz|[Hz|[]]].
             - destruct (V2' z u Hz). split; [assumption|lia].
             - injection Hz as <- <-. auto. }
           split; [cbn [map fst]; now rewrite W3|]. constructor; [|exact W4]. split; [exact Fn|exact Hwf].
        -- intros g v kn b Hv HI. destruct (Hv n _ (or_introl eq_refl)) as (v' & C1 & C2). pose proof (Hvis g v' C2) as Hvy.
           inversion C2 as [|? ? ? ? T1 T2 T3 T4]; subst.
           assert (handle_for kn (new_tag s) = None) as Hnone.
           { destruct (handle_for kn (new_tag s)) as [h|] eqn:E; [|reflexivity]. exfalso. destruct (i4 _ _ _ _ HI _ _ E) as (z & u & Z1 & Z2).
             exact (new_tag_fresh s Hok z u Z1 Z2). }
           destruct (Hrb1 g v' kn b Hvy (inv_open s kn b bound a (new_tag s) HI ltac:(lia) Hnone)) as (ml & kn1 & b1 & R1 & R2 & R3 & R4 & (b1' & R5) & R6).
           destruct (new_object_inv s _ a (new_tag s) kn kn1 b b1 ml bound La V1 ltac:(exists new1; split; [reflexivity|exact V2']) HI R2 Hnone R4 R6 R3) as [Hm2 HI2].
           set (kn2 := (new_tag s, length b1) :: kn1) in *. set (b2 := b1 ++ [Object (otype (heap a)) ml]) in *.
           destruct (Hrb2 g v kn2 b2) as (ml2 & kn3 & b3 & Q1 & Q2 & Q3 & Q4 & (b3' & Q5) & Q6);
             [intros n' k' Hin; apply Hv; now right|exact HI2|].
           exists ((n, MRef (length b1)) :: ml2), kn3, b3. rewrite read_ref_step, C1. cbn [obind]. unfold extract. rewrite T2. cbn [obind].
           rewrite Hnone, T1. cbn [obind]. destruct (Hgood a La) as (G1 & G2 & G3 & G4 & G5).
           replace (is_nil (otype (heap a))) with false by (destruct (otype (heap a)); [congruence|reflexivity]). rewrite G3. cbn [deeper]. rewrite R1. cbn [obind].
           change ((new_tag s, length b1) :: kn1) with kn2. change (b1 ++ [Object (otype (heap a)) ml]) with b2. rewrite Q1. cbn [obind].
           split; [reflexivity|]. split; [exact Q2|]. split.
           { constructor; [|exact Q3]. split; [reflexivity|]. cbn [snd]. exists (new_tag s). split.
             - apply in_or_app. right. apply in_or_app. right. now left.
             - apply Q4. unfold kn2. rewrite handle_cons. now rewrite (proj2 (ci_eqb_iff _ _) (same_refl (new_tag s))). }
           split; [intros t h Hh; apply Q4, Hm2, R4, Hh|]. split; [exists (b1' ++ [Object (otype (heap a)) ml] ++ b3'); rewrite Q5; unfold b2; rewrite R5, <- !app_assoc; reflexivity|].
           intros t h Hh. apply Q6 in Hh as [Hh|(z & u & Z1 & Z2 & Z3)].
           { unfold kn2 in Hh. rewrite handle_cons in Hh. destruct (ci_eqb (new_tag s) t) eqn:E.
             - right. exists a, (new_tag s). apply ci_eqb_iff in E. split; [apply in_or_app; right; apply in_or_app; right; now left|]. split; [|exact E].
               intros G. exact (new_tag_fresh s Hok _ _ G (same_refl _)).
             - apply R6 in Hh as [Hh|(z & u & Z1 & Z2 & Z3)]; [now left|]. right. exists z, u. split; [apply in_or_app; now right|].
               split; [|exact Z3]. intros G. apply Z2. now right. }
           { right. exists z, u. split; [exact Z1|]. split; [|exact Z3]. intros G. apply Z2. apply in_or_app. right. now right. }
Qed.

(** Enough fuel: the rank of the object written. *)
Lemma write_total fuel : forall r s, (forall n b, In (n, MRef b) r -> live b /\ (rank b < fuel)%nat) ->
  exists l s', write_members heap fuel r s = Ok (l, s').
Proof.
  induction fuel as [fuel IHf] using (well_founded_induction Wf_nat.lt_wf).
  induction r as [|[n m] r IHr]; intros s Hr; [exists [], s; destruct fuel; reflexivity|].
  assert (forall n0 b, In (n0, MRef b) r -> live b /\ (rank b < fuel)%nat) as Hr' by (intros n0 b Hb; apply (Hr n0); now right).
  assert ((forall a, m <> MRef a) \/ exists a, m = MRef a) as [Hm|[a ->]] by (destruct m; [left|left|left|right; eauto]; discriminate).
  - rewrite write_value_step by exact Hm. destruct (IHr s Hr') as (l & s' & ->). cbn [obind]. eauto.
  - rewrite write_ref_step. destruct (tag_for s a) as [t|].
    + destruct (IHr s Hr') as (l & s' & ->). cbn [obind]. eauto.
    + destruct (Hr n a (or_introl eq_refl)) as [La Ra]. destruct fuel as [|f]; [lia|].
      destruct (IHf f ltac:(lia) (members (heap a)) ((a, new_tag s) :: s)) as (y & s1 & ->).
      { intros n0 b Hb. destruct (Hdown a n0 b La Hb). split; [assumption|lia]. }
      cbn [obind]. destruct (IHr s1 Hr') as (l & s' & ->). cbn [obind]. eauto.
Qed.
End Sim.

Lemma splat_ok {N T} (t : node N T) g : wf t -> is_object t -> splat t = Ok g -> shows g (View 0 (g_rows g) 0) t.
Proof.
  intros Hwf Hob Hs. pose proof (rows_ok t Hwf) as Hr. pose proof Hs as Hs'. unfold splat in Hs'. rewrite Hr in Hs'. cbn [obind] in Hs'.
  destruct (cols t) as [w| | |] eqn:Ew; cbn [obind] in Hs'; try discriminate. unfold new_grid in Hs'.
  destruct (int32 ((height t + 1) * w)) as [q| | |] eqn:Ei; cbn [obind] in Hs'; try discriminate.
  destruct (splat_shows t (height t) w Hwf Hob Hr Ew) as (g' & G1 & G2 & G3).
  - unfold int32 in Ei. destruct ((-2147483648 <=? (height t + 1) * w) && ((height t + 1) * w <=? 2147483647)) eqn:E; [lia|discriminate].
  - rewrite Hs in G1. injection G1 as <-. exact G3.
Qed.

Lemma shown_copy {N T} (heap : nat -> object N T) schema rank root fuel x s g :
  (forall a, reachable heap root a -> archivable schema (heap a)) -> acyclic heap root rank ->
  write_members heap fuel (members (heap root)) [] = Ok (x, s) ->
  wf (Obj [] (otype (heap root)) (child_map x)) /\
  (shows g (View 0 (g_rows g) 0) (Obj [] (otype (heap root)) (child_map x)) ->
   exists h b, unarchive schema fuel g = Ok (h, b) /\ is_copy heap root h b).
Proof.
  intros Hgood Hac Ew. set (live := reachable heap root).
  assert (forall a n b, live a -> In (n, MRef b) (members (heap a)) -> live b /\ (rank b < rank a)%nat) as Hdown.
  { intros a n b La Hb. split; [exact (reachable_ref _ _ heap root a n b La Hb)|exact (Hac a n b La Hb)]. }
  assert (live root) as Lr by constructor.
  destruct (sim heap schema rank live Hgood Hdown fuel _ _ _ _ (rank root) Ew Logic.I (fine_members heap schema rank live Hgood Hdown root Lr))
    as [(W1 & (new & W2 & W2') & W3 & W4) Hrb].
  destruct (obj_wf heap schema live Hgood root x [] Lr (or_introl eq_refl) W3 W4) as [Hwf Hvis].
  split; [exact Hwf|]. intros Hsh. pose proof (Hvis g _ Hsh) as Hv.
  destruct (Hrb g (View 0 (g_rows g) 0) [] [] Hv) as (ml & kn & b & R1 & R2 & R3 & R4 & R5 & R6).
  { split; [intros y t []|intros y t h []|intros y t z u h []|intros t h; discriminate]. }
  inversion Hsh as [|? ? ? ? T1 T2 T3 T4]; subst. destruct (Hgood root Lr) as (G1 & G2 & G3 & G4 & G5).
  exists (length b), (b ++ [Object (otype (heap root)) ml]). split.
  - unfold unarchive, extract. rewrite T2. cbn [obind handle_for]. rewrite T1. cbn [obind].
    replace (is_nil (otype (heap root))) with false by (destruct (otype (heap root)); [congruence|reflexivity]). rewrite G3, R1. reflexivity.
  - exists (fun a k => (a = root /\ k = length b) \/ cp (new ++ []) kn a k).
    assert (forall a t, In (a, t) (new ++ []) -> a <> root) as Hnr.
    { intros a t Hin ->. rewrite app_nil_r in Hin. apply W2' in Hin as [_ Hin]. lia. }
    assert (forall a k, cp (new ++ []) kn a k -> (k < length b)%nat) as Hlt.
    { intros a k (t & C1 & C2). destruct (i2 _ _ _ _ _ _ R2 a t k C1 C2) as (o & O1 & _). apply nth_error_Some. congruence. }
    split; [left; auto|]. split; [|split].
    + intros a k [[-> ->]|Hc].
      * exists (Object (otype (heap root)) ml). rewrite nth_error_app2, Nat.sub_diag by lia. split; [reflexivity|]. split; [reflexivity|].
        cbn [members]. eapply copies_mono; [|exact R3]. auto.
      * pose proof (Hlt a k Hc). destruct Hc as (t & C1 & C2). destruct (i2 _ _ _ _ _ _ R2 a t k C1 C2) as (o & O1 & O2 & O3).
        exists o. rewrite nth_error_app1 by assumption. split; [exact O1|]. split; [exact O2|]. eapply copies_mono; [|exact O3]. auto.
    + intros a k k' [[-> ->]|Hc] [[E ->]|Hc']; [reflexivity| | |].
      * destruct Hc' as (t & C1 & _). exfalso. exact (Hnr _ _ C1 eq_refl).
      * destruct Hc as (t & C1 & _). exfalso. exact (Hnr _ _ C1 E).
      * destruct Hc as (t & C1 & C2), Hc' as (t' & C1' & C2'). rewrite (tags_fun _ W1 a t t' C1 C1') in C2. congruence.
    + intros a a' k [[-> ->]|Hc] [[-> Ek]|Hc'].
      * reflexivity.
      * pose proof (Hlt _ _ Hc'). lia.
      * pose proof (Hlt _ _ Hc). lia.
      * destruct Hc as (t & C1 & C2), Hc' as (t' & C1' & C2'). exact (i3 _ _ _ _ _ _ R2 a t a' t' k C1 C1' C2 C2').
Qed.
Lemma archive_copy {N T} (heap : nat -> object N T) schema rank root fuel g :
  (forall a, reachable heap root a -> archivable schema (heap a)) -> acyclic heap root rank ->
  archive heap fuel root = Ok g ->
  exists h b, unarchive schema fuel g = Ok (h, b) /\ is_copy heap root h b.
Proof.
  intros Hgood Hac Har. unfold archive in Har.
  destruct (write_members heap fuel (members (heap root)) []) as [[x s]| | |] eqn:Ew; cbn [obind] in Har; try discriminate.
  destruct (shown_copy heap schema rank root fuel x s g Hgood Hac Ew) as [Hwf H]. apply H. now apply splat_ok.
Qed.

From Coq Require Import String Ascii ZArith List Bool Lia Sorted.
From Verif Require Import Base StringModel StringSpec StringProofs OMap RepoModel RepoSpec RepoProofs GlobalModel GlobalSpec.
Import ListNotations.
Open Scope Z_scope.

Section Globals.
  Context {N T : Type}.
  Variable uniq : Z -> str.
  Notation obj := (object (option (table N T))).
  Notation repo := (omap str obj).
  Variable alloc : repo -> Z.
  Hypothesis Huniq : address_text uniq.
  Hypothesis Halloc : allocator alloc.
  Notation good := (good uniq).
  Notation holds := (holds uniq).

  (** the value stored under a name, if any, is in exactly one box *)
  Definition stored (m : repo) (name : str) (v : option (table N T)) : Prop :=
    match v with
    | Some c => exists x, holds m x /\ is_global name x /\ orest x = Some c /\ forall y, holds m y -> is_global name y -> y = x
    | None => forall y, holds m y -> ~ is_global name y
    end.
  Lemma box_wf name v a : ~ In "~"%char name -> wf (global_box (N := N) (T := T) name v a).
  Proof.
    intros H. split; cbn [otype oname global_box].
    - cbn. intros Hi. repeat destruct Hi as [Hi|Hi]; try discriminate; auto.
    - intros Hi. apply in_app_iff in Hi as [Hi|Hi]; [|contradiction]. cbn in Hi. repeat destruct Hi as [Hi|Hi]; try discriminate; auto.
  Qed.
  Lemma box_presentable m name v : good m -> ~ In "~"%char name -> presentable (holds m) (global_box name v (alloc m)).
  Proof.
    intros Hg H. destruct (box_wf name v (alloc m) H) as [H1 H2]. split; [exact H1|]. split; [exact H2|].
    intros x Hx E. exfalso. exact (Halloc m _ _ Hx E).
  Qed.
  Lemma store_set_spec m name v : good m -> ~ In "~"%char name -> good (store_set uniq alloc m name v) /\
    forall x, holds (store_set uniq alloc m name v) x <-> x = global_box name v (alloc m) \/ (holds m x /\ ~ is_global name x).
  Proof.
    intros Hg Hn. pose proof (box_presentable m name v Hg Hn) as Hp.
    destruct (add_erase_spec uniq m _ EName Hg Hp) as [G1 H1].
    destruct (add_insert_spec uniq Huniq (add_erase m (global_box name v (alloc m)) EName) (global_box name v (alloc m)) G1) as [G2 H2].
    { eapply presentable_sub; [|exact Hp]. intros x Hx. apply H1 in Hx. tauto. }
    split; [exact G2|]. intros x. unfold store_set, add, add_insert. cbn [fst]. rewrite H2, H1. unfold replaced, is_global. cbn [otype oname global_box]. tauto.
  Qed.
  Lemma store_set_stored m name v : good m -> ~ In "~"%char name -> stored (store_set uniq alloc m name v) name (Some v).
  Proof.
    intros Hg Hn. destruct (store_set_spec m name v Hg Hn) as [_ H]. exists (global_box name v (alloc m)). split; [apply H; auto|]. split.
    - split; apply same_refl.
    - split; [reflexivity|]. intros y Hy Hglob. apply H in Hy as [Hy|[_ Hy]]; [exact Hy|contradiction].
  Qed.
  Lemma global_names name name' (x : obj) : is_global name x -> is_global name' x -> same_up_to_case name name'.
  Proof.
    intros [_ H1] [_ H2]. apply same_sym in H1. pose proof (same_trans _ _ _ H1 H2) as H. clear -H.
    cbn [lit list_ascii_of_string app] in H. repeat (match goal with H : same_up_to_case (_ :: _) _ |- _ => inversion H; clear H; subst end;
      match goal with H : Forall2 same_letter ?a ?b |- _ => change (same_up_to_case a b) in H end). assumption.
  Qed.
  Lemma is_global_same name name' (x : obj) : same_up_to_case name name' -> is_global name x -> is_global name' x.
  Proof.
    intros H [H1 H2]. split; [exact H1|]. eapply same_trans; [exact H2|]. clear -H. apply Forall2_app; [apply same_refl|exact H].
  Qed.
  Lemma stored_same m name name' v : same_up_to_case name name' -> stored m name v -> stored m name' v.
  Proof.
    intros H. assert (E : forall x : obj, is_global name x <-> is_global name' x) by (intros x; split; apply is_global_same; [exact H|apply same_sym; exact H]).
    destruct v as [c|]; cbn [stored].
    - intros (x & H1 & H2 & H3 & H4). exists x. split; [exact H1|]. split; [apply E; exact H2|]. split; [exact H3|]. intros y Hy Hg. apply H4; [exact Hy|apply E; exact Hg].
    - intros H0 y Hy Hg. apply (H0 y Hy). apply E. exact Hg.
  Qed.
  Lemma store_set_other m name v name' w : good m -> ~ In "~"%char name -> ~ same_up_to_case name name' -> stored m name' w ->
    stored (store_set uniq alloc m name v) name' w.
  Proof.
    intros Hg Hn Hd Hs. destruct (store_set_spec m name v Hg Hn) as [_ H].
    assert (B : ~ is_global name' (global_box name v (alloc m))).
    { intros Hb. apply Hd. eapply global_names; [|exact Hb]. split; apply same_refl. }
    destruct w as [c|]; cbn [stored] in *.
    - destruct Hs as (x & H1 & H2 & H3 & H4). exists x. split.
      + apply H. right. split; [exact H1|]. intros Hx. apply Hd. eapply global_names; eauto.
      + split; [exact H2|]. split; [exact H3|]. intros y Hy Hy2. apply H in Hy as [->|[Hy _]]; [contradiction|auto].
    - intros y Hy Hy2. apply H in Hy as [->|[Hy _]]; [contradiction|]. exact (Hs y Hy Hy2).
  Qed.
  Lemma starts_global name (m : repo) (x : obj) : good m -> ~ In "~"%char name -> holds m x ->
    (starts (tag uniq x) (base_tag (global_box (N := N) (T := T) name [] 0)) = true <-> is_global name x).
  Proof. intros Hg Hn Hx. rewrite (starts_base uniq); [reflexivity|eapply holds_wf; eauto|apply box_wf; exact Hn]. Qed.
  Lemma store_get_stored m name v : good m -> ~ In "~"%char name -> stored m name v ->
    store_get m name = match v with Some c => if is_empty c then Throw else Ok c | None => Ok [] end.
  Proof.
    intros Hg Hn Hs. unfold store_get. rewrite (mlower_filter ci_compare ci_compare_lt_trans) by exact (proj1 Hg).
    set (st := base_tag (global_box name [] 0)). set (fl := filter _ m).
    assert (F : forall k o, In (k, o) fl -> k = tag uniq o /\ holds m o /\ ci_compare k st <> Lt).
    { intros k o H. apply filter_In in H as [H1 H2]. destruct (proj2 Hg _ _ H1) as [E W]. split; [exact E|]. split; [rewrite E in H1; exact H1|].
      cbn [fst] in H2. intros X. rewrite X in H2. discriminate. }
    assert (S2 : msorted ci_compare fl) by (apply filter_sorted; exact (proj1 Hg)).
    assert (D : forall x, holds m x -> is_global name x -> In (tag uniq x, x) fl).
    { intros x Hx Hglob. apply filter_In. split; [exact Hx|]. cbn [fst]. apply (starts_global name m x Hg Hn Hx) in Hglob.
      apply starts_not_below in Hglob. fold st in Hglob. destruct (ci_compare (tag uniq x) st); congruence. }
    clearbody fl. destruct v as [c|]; cbn [stored] in Hs.
    - destruct Hs as (x & H1 & H2 & H3 & H4). specialize (D x H1 H2). destruct fl as [|[k o] r]; [destruct D|].
      destruct (F k o (or_introl eq_refl)) as (-> & Ho & Hlt).
      assert (E : starts (tag uniq o) st = true).
      { destruct D as [D|D]; [injection D as _ ->; apply (starts_global name m x Hg Hn H1); exact H2|].
        apply sorted_inv in S2 as [_ S2]. rewrite Forall_forall in S2. specialize (S2 _ D). unfold below in S2. cbn [fst] in S2.
        eapply starts_between; [exact Hlt|exact S2|]. apply (starts_global name m x Hg Hn H1). exact H2. }
      rewrite E. apply (starts_global name m o Hg Hn Ho) in E. rewrite (H4 o Ho E), H3. reflexivity.
    - destruct fl as [|[k o] r]; [reflexivity|]. destruct (F k o (or_introl eq_refl)) as (-> & Ho & Hlt).
      destruct (starts (tag uniq o) st) eqn:E; [|reflexivity]. exfalso. apply (Hs o Ho). apply (starts_global name m o Hg Hn Ho). exact E.
  Qed.

  (** * Histories *)
  Variable regex : str -> option (str -> bool).
  Lemma happen_stored (m : repo) e : good m -> proper uniq regex m e -> good (happen uniq regex alloc m e) /\
    forall name w, ~ In "~"%char name -> stored m name w ->
      match e with
      | ESet n v => (same_up_to_case n name -> stored (happen uniq regex alloc m e) name (Some v)) /\
                    (~ same_up_to_case n name -> stored (happen uniq regex alloc m e) name w)
      | EOp _ => stored (happen uniq regex alloc m e) name w
      end.
  Proof.
    intros Hg Hp. destruct e as [n v|o]; cbn [happen proper] in *.
    - destruct Hp as [Hn He]. split; [apply (store_set_spec m n v Hg Hn)|]. intros name w Hname Hs. split; intros H.
      + eapply stored_same; [exact H|]. apply store_set_stored; assumption.
      + apply store_set_other; assumption.
    - destruct Hp as [Hf Ha].
      assert (Hh : forall x, In x (map snd m) <-> holds m x).
      { intros x. rewrite in_map_iff. split; [intros ([k y] & E & H); cbn in E; subst; eapply in_holds; eauto|]. intros H. exists (tag uniq x, x). auto. }
      assert (Ha' : admissible (holds m) o).
      { assert (X : forall s, presentable (fun x => In x (map snd m)) s -> presentable (holds m) s) by (intros s; apply presentable_sub; intros x; apply Hh).
        destruct o; cbn [admissible] in *; auto. }
      destruct (exec_spec uniq Huniq regex m o Hg Ha') as [G S]. split; [exact G|]. intros name w Hname Hs.
      set (m' := fst (exec uniq regex m o)) in *. clearbody m'.
      assert (K : forall x, is_global name x -> (holds m' x <-> holds m x)).
      { intros x Hx. destruct o; cbn [spec_step foreign] in *.
        - destruct S as [_ S]. destruct (Hf name) as [F1 F2]. rewrite S. split; [intros [->|[H _]]; [contradiction|exact H]|]. intros H. right. split; [exact H|]. apply F2. exact Hx.
        - destruct (regex pattern) as [f|] eqn:E; destruct S as [_ S]; rewrite S; [|tauto]. split; [tauto|]. intros H. split; [exact H|]. eapply Hf; [reflexivity|exact Hx].
        - destruct S as [_ S]. rewrite S. split; [tauto|]. intros H. split; [exact H|]. intros ->. exact (Hf name Hx).
        - destruct S as [_ S]. rewrite S. split; [tauto|]. intros H. split; [exact H|]. intros Hi. exact (Hf name x Hi Hx).
        - apply S.
        - apply S.
        - apply S. }
      destruct w as [c|]; cbn [stored] in *.
      + destruct Hs as (x & H1 & H2 & H3 & H4). exists x. split; [apply K; auto|]. split; [exact H2|]. split; [exact H3|].
        intros y Hy Hgy. apply H4; [apply K; auto|exact Hgy].
      + intros y Hy Hgy. apply (Hs y); [apply K; auto|exact Hgy].
  Qed.
  Lemma happen_all l : forall m, good m -> all_proper uniq regex alloc m l -> good (fold_left (happen uniq regex alloc) l m).
  Proof. induction l as [|e l IH]; intros m Hg Hp; [exact Hg|]. destruct Hp as [Hp Hr]. apply IH; [apply happen_stored; assumption|exact Hr]. Qed.
  Lemma all_proper_app l1 : forall m l2, all_proper uniq regex alloc m (l1 ++ l2) ->
    all_proper uniq regex alloc m l1 /\ all_proper uniq regex alloc (fold_left (happen uniq regex alloc) l1 m) l2.
  Proof. induction l1 as [|e l1 IH]; intros m l2 H; [split; [exact Logic.I|exact H]|]. destruct H as [H1 H2]. apply IH in H2 as [H2 H3]. repeat split; auto. Qed.
  Lemma last_stored_stored l name w : last_stored name l w -> all_proper uniq regex alloc [] l -> ~ In "~"%char name ->
    stored (fold_left (happen uniq regex alloc) l []) name w /\ match w with Some v => is_empty v = false | None => True end.
  Proof.
    assert (G0 : good ([] : repo)) by (split; [constructor|intros k o []]).
    intros H. induction H as [|l n v Hs|l n v w Hd H IH|l o w H IH]; intros Hp Hn; cycle 1.
    - apply all_proper_app in Hp as [Hp1 [Hp2 _]]. rewrite fold_left_app. cbn [fold_left]. pose proof (happen_all l [] G0 Hp1) as G.
      split; [|exact (proj2 Hp2)]. cbn [happen]. eapply stored_same; [exact Hs|]. apply store_set_stored; [exact G|exact (proj1 Hp2)].
    - apply all_proper_app in Hp as [Hp1 [Hp2 _]]. rewrite fold_left_app. cbn [fold_left]. pose proof (happen_all l [] G0 Hp1) as G.
      destruct (IH Hp1 Hn) as [I1 I2]. split; [|exact I2]. destruct (happen_stored _ (ESet n v) G Hp2) as [_ K]. apply (K name w Hn I1). exact Hd.
    - apply all_proper_app in Hp as [Hp1 [Hp2 _]]. rewrite fold_left_app. cbn [fold_left]. pose proof (happen_all l [] G0 Hp1) as G.
      destruct (IH Hp1 Hn) as [I1 I2]. split; [|exact I2]. destruct (happen_stored _ (EOp o) G Hp2) as [_ K]. apply (K name w Hn I1).
    - split; [|exact Logic.I]. intros y [].
  Qed.

  (** * Dates *)
  Variable today : Z.
  Definition cell_of (d : option Z) : option (table N T) := match d with Some d => Some [[CDate d]] | None => None end.
  Definition dates (m : repo) (cur : which -> option Z) : Prop := good m /\ forall w, stored m (date_name w) (cell_of (cur w)).
  Definition upd (cur : which -> option Z) (w : which) (d : Z) : which -> option Z := fun x => if which_eqb w x then Some d else cur x.
  Definition val (cur : which -> option Z) (w : which) : Z := match cur w with Some d => d | None => today end.
  Lemma date_name_ok w : ~ In "~"%char (date_name w).
  Proof. destruct w; cbn; intros H; repeat destruct H as [H|H]; try discriminate; auto. Qed.
  Lemma date_names w w' : same_up_to_case (date_name w) (date_name w') -> w = w'.
  Proof. intros H. apply ci_eqb_iff in H. destruct w, w'; try reflexivity; vm_compute in H; discriminate. Qed.
  Lemma set_date_dates m cur w d : dates m cur -> dates (set_date uniq alloc m w d) (upd cur w d).
  Proof.
    intros [Hg Hd]. unfold set_date. split; [apply store_set_spec; [exact Hg|apply date_name_ok]|]. intros x. unfold upd. destruct (which_eqb w x) eqn:E.
    - assert (w = x) by (destruct w, x; try reflexivity; discriminate). subst x. cbn [cell_of]. apply store_set_stored; [exact Hg|apply date_name_ok].
    - apply store_set_other; [exact Hg|apply date_name_ok| |apply Hd]. intros H. apply date_names in H. subst x. destruct w; discriminate.
  Qed.
  Lemma get_date_dates m cur w : dates m cur -> exists m', get_date uniq alloc today m w = Ok (m', val cur w) /\
    dates m' (match cur w with Some _ => cur | None => upd cur w today end).
  Proof.
    intros Hd. unfold get_date. rewrite (store_get_stored m (date_name w) (cell_of (cur w)) (proj1 Hd) (date_name_ok w) (proj2 Hd w)).
    unfold val. destruct (cur w) as [d|] eqn:E; cbn [cell_of is_empty obind cell_empty].
    - exists m. split; [reflexivity|exact Hd].
    - eexists. split; [reflexivity|]. apply set_date_dates. exact Hd.
  Qed.
  (** programs *)
  Lemma run_app l1 : forall s l2, run uniq alloc today s (l1 ++ l2) = do s' <- run uniq alloc today s l1; run uniq alloc today s' l2.
  Proof.
    induction l1 as [|c l1 IH]; intros s l2; cbn [app run]; [reflexivity|]. destruct (run_cmd uniq alloc today s c); cbn [obind]; auto.
  Qed.
  Lemma val_upd cur w d x : val (upd cur w d) x = if which_eqb w x then d else val cur x.
  Proof. unfold val, upd. destruct (which_eqb w x); reflexivity. Qed.
  Lemma val_read cur w x : val (match cur w with Some _ => cur | None => upd cur w today end) x = val cur x.
  Proof. destruct (cur w) eqn:E; [reflexivity|]. rewrite val_upd. destruct (which_eqb w x) eqn:E2; [|reflexivity].
    assert (w = x) by (destruct w, x; try reflexivity; discriminate). subst. unfold val. now rewrite E. Qed.
  Lemma effect_ext p f g : effect p f g -> forall f' g', (forall x, f x = f' x) -> (forall x, g x = g' x) -> effect p f' g'.
  Proof.
    induction 1 as [f g E|w d p f g H IH|w p f g H IH|w d p q f g h H1 IH1 H2 IH2]; intros f' g' Ef Eg.
    - constructor. intros x. rewrite <- Eg, <- Ef. apply E.
    - constructor. apply IH; [|exact Eg]. intros x. cbv beta. destruct (which_eqb w x); auto.
    - constructor. apply IH; auto.
    - eapply ef_scope; [apply IH1; [intros x; cbv beta; destruct (which_eqb w x); [reflexivity|apply Ef]|reflexivity]|].
      apply IH2; [|exact Eg]. intros x. cbv beta. destruct (which_eqb w x); [apply Ef|reflexivity].
  Qed.
  Lemma run_balanced p : balanced p -> forall m cur o, dates m cur -> exists m' cur',
    run uniq alloc today (GState m o) p = Ok (GState m' o) /\ dates m' cur' /\ effect p (val cur) (val cur').
  Proof.
    induction 1 as [|w d p H IH|w p H IH|w d p q H1 IH1 H2 IH2]; intros m cur o Hd.
    - exists m, cur. split; [reflexivity|]. split; [exact Hd|]. constructor. reflexivity.
    - cbn [run run_cmd obind objects overrides]. destruct (IH _ _ o (set_date_dates m cur w d Hd)) as (m' & cur' & R & D & E).
      exists m', cur'. split; [exact R|]. split; [exact D|]. constructor. eapply effect_ext; [exact E| |reflexivity]. intros x. apply val_upd.
    - cbn [run run_cmd objects overrides]. destruct (get_date_dates m cur w Hd) as (m1 & -> & D1). cbn [obind].
      destruct (IH _ _ o D1) as (m' & cur' & R & D & E). exists m', cur'. split; [exact R|]. split; [exact D|]. constructor.
      eapply effect_ext; [exact E| |reflexivity]. intros x. apply val_read.
    - cbn [run run_cmd objects overrides]. destruct (get_date_dates m cur w Hd) as (m1 & -> & D1). cbn [obind].
      apply (set_date_dates _ _ w d) in D1. destruct (IH1 _ _ ((w, val cur w) :: o) D1) as (m2 & cur2 & R2 & D2 & E2).
      rewrite run_app, R2. cbn [obind run run_cmd overrides objects].
      destruct (IH2 _ _ o (set_date_dates m2 cur2 w (val cur w) D2)) as (m3 & cur3 & R3 & D3 & E3).
      exists m3, cur3. split; [exact R3|]. split; [exact D3|]. eapply ef_scope.
      + eapply effect_ext; [exact E2| |reflexivity]. intros x. rewrite val_upd. destruct (which_eqb w x); [reflexivity|]. apply val_read.
      + eapply effect_ext; [exact E3| |reflexivity]. intros x. rewrite val_upd. reflexivity.
  Qed.
End Globals.

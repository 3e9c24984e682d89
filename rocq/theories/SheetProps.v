(** C78: interpolators made, used, listed and erased from the spreadsheet. *)
From Coq Require Import Ascii String ZArith List Bool Reals Lia Lra Arith ZifyBool.
From Verif Require Import Base Vec StringModel StringSpec StringProofs OMap DictModel ExcelModel ExcelSpec ExcelProps RepoModel RepoSpec RepoProofs RepoProps
  InterpModel InterpSpec InterpProofs InterpProps CubicModel CubicSpec CubicProofs CubicProps BandSpec SmoothModel SmoothSpec SmoothProps NoteModel SheetModel SheetSpec SheetProofs.
Import ListNotations.
Open Scope nat_scope.
Local Notation length := List.length.

Lemma line_value x y t : increasing x -> length x = length y -> x <> [] -> exists v, interp_linear x y t = Ok v /\ on_line x y t v.
Proof.
  intros Hx L N. assert (Hn : nondecreasing x) by now apply increasing_nondecreasing.
  destruct (proj1 (C37_total x y t N) (conj L Hn)) as [v E]. assert (E' : interp_linear x y t = Ok v).
  { unfold interp1 in E. destruct ((length x =? length y) && is_monotonic x); [exact E|discriminate]. }
  exists v. split; [exact E'|]. destruct (C37_flat x y t Hn L N) as [F1 F2]. split; [|split; [|split]].
  - intros k Hk ->. pose proof (C37_knots x y k Hx L Hk). congruence.
  - intros H. specialize (F1 H). congruence.
  - intros H. specialize (F2 H). congruence.
  - intros k Hk H. destruct (C37_between x y k t Hn L Hk H) as (w & Ew & Q). assert (w = v) by congruence. subst w. exact Q.
Qed.
Lemma line_of x y t v : increasing x -> length x = length y -> x <> [] -> interp1 x y t = Ok v -> on_line x y t v.
Proof.
  intros Hx L N E. destruct (line_value x y t Hx L N) as (w & Ew & Q). unfold interp1 in E. destruct ((length x =? length y) && is_monotonic x); [|discriminate]. assert (w = v) by congruence. now subst.
Qed.
Lemma surface_value x y f a b : increasing x -> increasing y -> table x y f -> x <> [] -> y <> [] -> exists v, interp2_linear x y f a b = Ok v /\ on_surface x y f a b v.
Proof.
  intros Hx Hy T Nx Ny. assert (Hn : nondecreasing x) by now apply increasing_nondecreasing. assert (Hm : nondecreasing y) by now apply increasing_nondecreasing.
  destruct (C37_2d_between x y f a b Hn Hm T Nx Ny) as (v & E & H1 & H2 & H3). exists v. split; [exact E|]. destruct T as [T1 T2].
  assert (Hp : 0 < length x) by (destruct x; [congruence|cbn; lia]).
  split; [|split].
  - intros H. apply line_of; auto. rewrite T2; [reflexivity|lia].
  - intros H. apply line_of; auto. rewrite T2; [reflexivity|lia].
  - intros k Hk H. destruct (H3 k Hk H) as (z1 & z2 & Q1 & Q2 & Q3 & _). exists z1, z2. split; [|split; [|exact Q3]]; apply line_of; auto; rewrite T2; auto; lia.
Qed.
Lemma each_ok {A B} (f : A -> outcome B) (Q : A -> B -> Prop) l : (forall x, In x l -> exists y, f x = Ok y /\ Q x y) -> exists r, each f l = Ok r /\ Forall2 Q l r.
Proof.
  induction l as [|x l IH]; intros H; [exists []; split; [reflexivity|constructor]|]. destruct (H x (or_introl eq_refl)) as (y & E & Qy). destruct IH as (r & Er & F); [intros; apply H; now right|].
  cbn [each]. rewrite E. cbn [obind]. rewrite Er. cbn [obind]. eexists. split; [reflexivity|]. now constructor.
Qed.
Lemma each_throw {A B} (f : A -> outcome B) l x : In x l -> f x = Throw -> (forall y, In y l -> (exists z, f y = Ok z) \/ f y = Throw) -> each f l = Throw.
Proof.
  intros Hx Ex H. induction l as [|y l IH]; [destruct Hx|]. cbn [each]. destruct (H y (or_introl eq_refl)) as [[z Ez]|Ez]; rewrite Ez; [|reflexivity]. cbn [obind].
  destruct Hx as [->|Hx]; [congruence|]. rewrite IH; [reflexivity|exact Hx|]. intros; apply H; now right.
Qed.
Lemma maybe_read o l : is_maybe o l -> doubles o true = Ok l.
Proof. intros [[-> ->]|[H N]]; [reflexivity|]. now apply numbers_read. Qed.
Lemma maybe_ints as_int near_int o l : reads_orders as_int near_int -> Forall (fun k => (1 <= k <= 3)%Z) l -> is_maybe o (map IZR l) -> ints as_int near_int o true = Ok l.
Proof.
  intros R F [[-> E]|[H N]]; [destruct l; [reflexivity|discriminate]|]. apply ints_read; [|exact H|intros ->; now apply N]. eapply Forall_impl; [|exact F]. cbn. exact R.
Qed.
Lemma monotone_of x : increasing x -> is_monotonic x = true.
Proof. intros H. apply monotonic_iff. now apply increasing_nondecreasing. Qed.
Lemma last_all {A} (Q : A -> Prop) l d : Forall Q l -> l <> [] -> Q (last l d).
Proof. intros F. induction F as [|x l Hx F IH]; intros N; [congruence|]. destruct l; [exact Hx|]. apply IH. discriminate. Qed.
Ltac open_outcome E := repeat match type of E with
  | obind ?r _ = _ => let Q := fresh "Q" in destruct r eqn:Q; cbn [obind] in E; try discriminate E
  | require ?b _ = _ => let Q := fresh "Q" in destruct b eqn:Q; cbn [require] in E; try discriminate E end.
Lemma made_linear nm x y name xs ys : is_text nm name -> is_numbers x xs -> is_numbers y ys -> increasing xs -> xs <> [] -> length ys = length xs ->
  new_linear nm x y = Ok (lit "Interp1", name, Linear xs ys).
Proof.
  intros Tn Tx Ty Ix Nx L. assert (Ny : ys <> []) by (intros ->; destruct xs; [congruence|discriminate]).
  unfold new_linear. rewrite (text_read nm name false Tn). cbn [obind]. rewrite (numbers_read x xs false Tx Nx). cbn [obind]. rewrite (proj2 (increasing_iff xs) Ix). cbn [require].
  rewrite (numbers_read y ys false Ty Ny). cbn [obind]. rewrite L, Nat.eqb_refl. cbn [require]. unfold linear. rewrite L, Nat.eqb_refl, (monotone_of xs Ix). reflexivity.
Qed.

Section C78.
Variable uniq : Z -> str.
Hypothesis Huniq : address_text uniq.
Variable regex : str -> option (str -> bool).
Variable as_int : R -> outcome Z.
Variable near_int : R -> Z -> bool.
Notation step := (step uniq regex as_int near_int).
Notation run := (run uniq regex as_int near_int).
Notation session := (session uniq regex as_int near_int).
Notation sensible_run := (sensible_run uniq regex as_int near_int).
Notation sensible := (sensible as_int near_int).
Notation leaves := (leaves uniq as_int near_int).
Notation handle := (handle uniq).
Notation inv := (inv uniq).
Notation holds := (holds (P:=shape) uniq).

Lemma session_inv l : sensible_run [] l -> inv (session l).
Proof. apply run_inv; [exact Huniq|apply inv_nil]. Qed.
Lemma tag_handle s : tag uniq s = handle s. Proof. apply tag_is_text. Qed.

Lemma named_handle m o t x : inv m -> to_string o false = Ok t -> holds m x -> same_up_to_case t (tag uniq x) -> to_handle m o = Ok x.
Proof.
  intros I0 E Hx Et. unfold to_handle. rewrite E. cbn [obind]. rewrite (fetch_held uniq Huniq m x t I0 Hx Et). cbn [obind]. destruct t; [|reflexivity]. exfalso. unfold tag, base_tag, type_tag in Et. inversion Et.
Qed.

(** Calls that give names without tildes, with objects that live at different places, are sensible. *)
Lemma made_name c a ty n s : making as_int near_int c = Some (a, Ok (ty, n, s)) -> address_of c = [a] /\ exists o, name_of c = Some o /\ to_string o false = Ok n.
Proof.
  destruct c; cbn [SheetModel.making address_of name_of]; intros E; try discriminate;
    match type of E with Some (?a0, ?r) = _ => assert (X : r = Ok (ty, n, s)) by congruence; assert (a0 = a) by congruence end; subst; split; try reflexivity; eexists; (split; [reflexivity|]);
    unfold new_linear, new_smoothed, new_cubic, new_linear2, linear in X; open_outcome X; congruence.
Qed.
Theorem C78_sensible l : Forall (fun c => forall o n, name_of c = Some o -> to_string o false = Ok n -> ~ In "~"%char n) l -> NoDup (concat (map address_of l)) -> sensible_run [] l.
Proof.
  assert (G : forall l m, inv m -> Forall (fun c => forall o n, name_of c = Some o -> to_string o false = Ok n -> ~ In "~"%char n) l -> NoDup (concat (map address_of l)) ->
    (forall x, has m x -> ~ In (oaddr x) (concat (map address_of l))) -> sensible_run m l).
  { clear l. induction l as [|c l IH]; intros m I0 F N H; [exact Logic.I|]. inversion F as [|? ? F1 F2]; subst. cbn [map concat] in N, H.
    assert (S0 : sensible m c).
    { intros a ty n s E. destruct (made_name c a ty n s E) as (Ea & o & Eo & En). split; [exact (F1 o n Eo En)|]. intros x Hx Q. apply (H x Hx). rewrite Ea, Q. now left. }
    assert (ND : NoDup (concat (map address_of l))) by (clear - N; revert N; generalize (address_of c) as k; induction k; cbn; intros N; [exact N|]; inversion N; auto).
    pose proof (step_inv uniq Huniq regex as_int near_int m c I0 S0) as I1. cbn [SheetSpec.sensible_run]. split; [exact S0|]. apply IH; auto. intros x Hx.
    assert (Q : has m x -> ~ In (oaddr x) (concat (map address_of l))) by (intros Q Q2; apply (H x Q); apply in_or_app; now right).
    apply (has_holds uniq) in Hx; [|apply I1]. assert (Hm : holds m x -> has m x) by (intros; apply (has_holds uniq); [apply I0|assumption]).
    destruct (classify as_int near_int c) as [(a & ty & n & s & E)|[[h ->]|[N1 N2]]].
    - apply (step_made uniq Huniq regex as_int near_int m c a ty n s I0 S0 E) in Hx as [->|[Hx _]]; [|auto]. cbn [oaddr]. destruct (made_name c a ty n s E) as [Ea _]. rewrite Ea in N. cbn in N. now inversion N.
    - pose proof (step_erase uniq Huniq regex as_int near_int m h I0) as K. destruct (read_vector (to_handle m) h false); [destruct K as (_ & K & _); apply K in Hx; apply Q, Hm, Hx|destruct K as [K _]; rewrite K in Hx; auto..].
    - apply (step_other uniq Huniq regex as_int near_int m c I0 N1 N2) in Hx. auto. }
  intros F N. apply G; [apply inv_nil|exact F|exact N|]. intros x [].
Qed.

(** What is held.  A call that makes an object adds it in place of those of the same type and name, when it has a name; a call that
    erases takes away the objects whose handles are given, and says how many; no other call changes what is held. *)
Theorem C78_held before c : sensible_run [] (before ++ [c]) -> let m := session before in let m' := fst (step m c) in
  (forall a ty n s, making as_int near_int c = Some (a, Ok (ty, n, s)) -> snd (step m c) = Ok (one_text (handle (Obj ty n a s))) /\
     forall x, has m' x <-> x = Obj ty n a s \/ has m x /\ ~ (n <> [] /\ same_up_to_case (otype x) ty /\ same_up_to_case (oname x) n)) /\
  (forall h ts, c = Erase h -> read_vector (fun o => to_string o false) h false = Ok ts -> (forall t, In t ts -> exists x, has m x /\ same_up_to_case t (handle x)) ->
     (forall x, has m' x <-> has m x /\ forall t, In t ts -> ~ same_up_to_case t (handle x)) /\
     exists n, snd (step m c) = Ok (one_number (IZR n)) /\ counts n (fun x => has m x /\ exists t, In t ts /\ same_up_to_case t (handle x))) /\
  ((forall a r, making as_int near_int c = Some (a, r) -> forall o, r <> Ok o) -> (forall h, c <> Erase h) -> forall x, has m' x <-> has m x).
Proof.
  intros S0 m m'. apply sensible_app in S0 as [S1 [S2 _]]. pose proof (session_inv before S1) as I0. fold m in I0. change (fst (run [] before)) with m in S2.
  assert (Hm : forall x, has m x <-> holds m x) by (intros; apply has_holds, I0). pose proof (step_inv uniq Huniq regex as_int near_int m c I0 S2) as I1. fold m' in I1.
  assert (Hm' : forall x, has m' x <-> holds m' x) by (intros; apply has_holds, I1). split; [|split].
  - intros a ty n s E. destruct (step_made uniq Huniq regex as_int near_int m c a ty n s I0 S2 E) as (_ & R & H). rewrite <- tag_handle. split; [exact R|]. intros x. rewrite Hm', Hm. apply H.
  - intros h ts -> Er Hn. destruct (vector_map _ (to_handle m) (fun t x => holds m x /\ same_up_to_case t (handle x)) _ _ _ Er) as (l & El & F).
    { intros o t Et Ht. destruct (Hn t Ht) as (x & Hx & Tx). exists x. split; [|split; [now apply Hm|exact Tx]]. eapply named_handle; eauto; [now apply Hm|rewrite tag_handle; exact Tx]. }
    pose proof (step_erase uniq Huniq regex as_int near_int m h I0) as Q. rewrite El in Q. destruct Q as (_ & Q1 & n & Q2 & Q3).
    assert (IL : forall x, holds m x -> (In x l <-> exists t, In t ts /\ same_up_to_case t (handle x))).
    { intros x Hx. split.
      - clear - F. induction F as [|t y ts l [_ Q] F IH]; intros Hl; [destruct Hl|]. destruct Hl as [->|Hl]; [exists t; split; [now left|exact Q]|]. destruct (IH Hl) as (t' & Q1 & Q2). exists t'. split; [now right|exact Q2].
      - intros (t & Ht & Et). assert (exists y, In y l /\ holds m y /\ same_up_to_case t (handle y)) as (y & Hy & Ky & Ty).
        { clear - F Ht. induction F as [|t' y ts l [Q0 Q] F IH]; [destruct Ht|]. destruct Ht as [->|Ht]; [exists y; split; [now left|auto]|]. destruct (IH Ht) as (z & Qz & Qz'). exists z. split; [now right|exact Qz']. }
        assert (y = x); [|now subst]. apply (proj1 (proj2 I0)); auto. apply (tag_same uniq Huniq y x (holds_wf uniq m y (proj1 I0) Ky) (holds_wf uniq m x (proj1 I0) Hx)). rewrite !tag_handle. eauto using same_sym, same_trans. }
    split.
    + intros x. rewrite Hm', Hm. unfold m'. rewrite Q1. split.
      * intros [Hx Nl]. split; [exact Hx|]. intros t Ht Et. apply Nl. apply IL; eauto.
      * intros [Hx Nl]. split; [exact Hx|]. intros Hl. apply (IL x Hx) in Hl as (t & Ht & Et). exact (Nl t Ht Et).
    + exists n. split; [exact Q2|]. destruct Q3 as (k & [N1 N2] & En). exists k. split; [|exact En]. split; [exact N1|]. intros x. rewrite N2. split.
      * intros [Hx Hl]. split; [now apply Hm|]. now apply IL.
      * intros [Hx Hl]. apply Hm in Hx. split; [exact Hx|]. now apply IL.
  - intros N1 N2 x. rewrite Hm', Hm. apply (step_other uniq Huniq regex as_int near_int m c I0); [|exact N2]. intros a ty n s E. exact (N1 a _ E _ eq_refl).
Qed.

(** A handle names the object until another of its type and name is made or it is erased. *)
Theorem C78_kept before c after a ty n s : sensible_run [] (before ++ c :: after) -> making as_int near_int c = Some (a, Ok (ty, n, s)) -> Forall (leaves (Obj ty n a s)) after ->
  snd (step (session before) c) = Ok (one_text (handle (Obj ty n a s))) /\ has (session (before ++ c :: after)) (Obj ty n a s) /\
  forall o, is_text o (handle (Obj ty n a s)) -> to_handle (session (before ++ c :: after)) o = Ok (Obj ty n a s).
Proof.
  intros S0 E L0. destruct (story uniq Huniq regex as_int near_int before c after a ty n s S0 E L0) as (R & I2 & H2). split; [rewrite <- tag_handle; exact R|].
  split; [apply (has_holds uniq); [apply I2|exact H2]|]. intros o T0. apply (to_handle_held uniq Huniq); auto. rewrite tag_handle. exact T0.
Qed.
Lemma get_reply m f q s qs (Q : R -> R -> Prop) : to_handle m f = Ok s -> is_interp1 (orest s) = true -> is_numbers q qs -> qs <> [] ->
  (forall t, In t qs -> exists v, checked1 (orest s) t = Ok v /\ Q t v) -> exists vs, snd (step m (Get f q)) = Ok (column vs) /\ Forall2 Q qs vs.
Proof.
  intros E B Hq Nq H. destruct (each_ok (checked1 (orest s)) Q qs H) as (vs & Ev & F). exists vs. split; [|exact F].
  unfold SheetModel.step. cbn [SheetModel.making]. unfold interp1_get. rewrite E. cbn [obind]. rewrite B. cbn [require]. rewrite (numbers_read q qs false Hq Nq). cbn [obind]. rewrite Ev. cbn [then_reply snd].
  apply reply_column. intros ->. inversion F. congruence.
Qed.

(** Linear interpolation: what comes back is the value of the broken line through the points, however many calls are made between. *)
Theorem C78_linear before after a nm x y f q name xs ys qs :
  is_text nm name -> is_numbers x xs -> is_numbers y ys -> increasing xs -> xs <> [] -> length ys = length xs ->
  let s := Obj (lit "Interp1") name a (Linear xs ys) in
  let c := NewLinear a nm x y in
  sensible_run [] (before ++ c :: after) -> Forall (leaves s) after -> is_text f (handle s) -> is_numbers q qs -> qs <> [] ->
  snd (step (session before) c) = Ok (one_text (handle s)) /\
  exists vs, snd (step (session (before ++ c :: after)) (Get f q)) = Ok (column vs) /\ Forall2 (on_line xs ys) qs vs.
Proof.
  intros Tn Tx Ty Ix Nx L s c S0 L0 Tf Tq Nq. assert (Ny : ys <> []) by (intros ->; destruct xs; [congruence|discriminate]).
  assert (E : making as_int near_int c = Some (a, Ok (interp1_type, name, Linear xs ys))).
  { cbn [c SheetModel.making]. do 2 f_equal. now apply made_linear. }
  destruct (C78_kept before c after a _ _ _ S0 E L0) as (R & _ & H). split; [exact R|]. apply (get_reply _ _ _ s qs); auto.
  intros t _. unfold checked1. cbn [s orest is_in_bounds obind require value1]. apply line_value; auto.
Qed.

(** Smoothed linear interpolation: the values are first smoothed (with the penalty as in C60), then interpolated. *)
Theorem C78_smoothed before a nm x y lam w name xs ys l ws :
  is_text nm name -> is_numbers x xs -> is_numbers y ys -> is_number lam l -> is_maybe w ws -> increasing xs -> 1 < length xs -> length ys = length xs ->
  (0 <= l)%R -> weights ws (length xs) -> let c := NewSmoothed a nm x y lam w in
  exists zs, minimizes (length xs) (the_weight ws) (shifted_link xs l) ys zs /\
    let s := Obj (lit "Interp1") name a (Linear xs zs) in
    (sensible_run [] (before ++ [c]) -> snd (step (session before) c) = Ok (one_text (handle s))) /\
    forall after f q qs, sensible_run [] (before ++ c :: after) -> Forall (leaves s) after -> is_text f (handle s) -> is_numbers q qs -> qs <> [] ->
    exists vs, snd (step (session (before ++ c :: after)) (Get f q)) = Ok (column vs) /\ Forall2 (on_line xs zs) qs vs.
Proof.
  intros Tn Tx Ty Tl Tw Ix Lx L Pl W c. assert (Nx : xs <> []) by (intros ->; cbn in Lx; lia). assert (Ny : ys <> []) by (intros ->; destruct xs; [congruence|discriminate]).
  assert (A : ascending xs) by (apply monotone_ok, monotone_of, Ix). destruct (C60_succeeds xs ys ws l A Lx L W) as [zs Ez]. exists zs.
  assert (Z : is_smoothed xs ys ws l zs) by (repeat split; assumption). pose proof (C60_minimizes_partial xs ys ws l zs Z) as M. split; [exact M|]. intros s.
  assert (Lz : length zs = length xs) by apply M.
  assert (E : making as_int near_int c = Some (a, Ok (interp1_type, name, Linear xs zs))).
  { cbn [c SheetModel.making]. do 2 f_equal. unfold new_smoothed. rewrite (text_read nm name false Tn). cbn [obind]. rewrite (numbers_read x xs false Tx Nx). cbn [obind]. rewrite (proj2 (increasing_iff xs) Ix). cbn [require].
    rewrite (numbers_read y ys false Ty Ny). cbn [obind]. rewrite L, Nat.eqb_refl. cbn [require]. rewrite Tl. cbn [to_double obind]. destruct (Rle_dec 0 l); [|contradiction]. cbn [require].
    rewrite (maybe_read w ws Tw). cbn [obind]. assert (B : ((length ws =? 0) || (length ws =? length xs))%nat = true) by (destruct W as [->|[-> _]]; [reflexivity|rewrite Nat.eqb_refl, orb_true_r; reflexivity]). rewrite B. cbn [require].
    rewrite Ez. cbn [obind]. unfold linear. rewrite Lz, Nat.eqb_refl, (monotone_of xs Ix). reflexivity. }
  split.
  - intros S0. apply (C78_kept before c [] a _ _ _ S0 E). constructor.
  - intros after f q qs S0 L0 Tf Tq Nq. destruct (C78_kept before c after a _ _ _ S0 E L0) as (_ & _ & H). apply (get_reply _ _ _ s qs); auto.
    intros t _. unfold checked1. cbn [s orest is_in_bounds obind require value1]. apply line_value; auto.
Qed.

(** Cubic interpolation: inside the points, the values of the cubic spline with the ends asked for (by default the third derivative is
    zero; one order or one value serves for both ends); a point outside is refused. *)
Theorem C78_cubic before a nm x y o v name xs ys os vs : reads_orders as_int near_int ->
  is_text nm name -> is_numbers x xs -> is_numbers y ys -> is_maybe o (map IZR os) -> is_maybe v vs -> increasing xs -> 2 < length xs -> length ys = length xs ->
  Forall (fun k => (1 <= k <= 3)%Z) os -> length os <= 2 -> length vs <= 2 -> (os = [] -> vs = []) -> let c := NewCubic a nm x y o v in
  exists fpp sp s1 s2, twice_smooth sp s1 s2 /\ cubic_between xs s2 /\ (forall k, k < length xs -> sp (nth k xs 0%R) = nth k ys 0%R) /\
    meets (Boundary (hd 3%Z os) (hd 0%R vs)) s1 s2 (nth 0 xs 0%R) /\ meets (Boundary (last os 3%Z) (last vs 0%R)) s1 s2 (nth (length xs - 1) xs 0%R) /\
    let s := Obj (lit "Interp1") name a (Cubic xs ys fpp) in
    (sensible_run [] (before ++ [c]) -> snd (step (session before) c) = Ok (one_text (handle s))) /\
    forall after f q qs, sensible_run [] (before ++ c :: after) -> Forall (leaves s) after -> is_text f (handle s) -> is_numbers q qs -> qs <> [] ->
      let r := snd (step (session (before ++ c :: after)) (Get f q)) in
      let inside t := (nth 0 xs 0 <= t <= nth (length xs - 1) xs 0)%R in
      (Forall inside qs -> r = Ok (column (map sp qs))) /\ ((exists t, In t qs /\ ~ inside t) -> r = Throw).
Proof.
  intros RO Tn Tx Ty To Tv Ix Lx L Fo Lo Lv Ov c. assert (Nx : xs <> []) by (intros ->; cbn in Lx; lia). assert (Ny : ys <> []) by (intros ->; destruct xs; [congruence|discriminate]).
  assert (K1 : (1 <= hd 3 os <= 3)%Z) by (destruct Fo; cbn [hd]; lia).
  assert (K2 : (1 <= last os 3 <= 3)%Z) by (destruct os; [cbn; lia|]; apply (last_all _ _ 3%Z Fo); discriminate).
  destruct (C38_spline xs ys (Boundary (hd 3%Z os) (hd 0%R vs)) (Boundary (last os 3%Z) (last vs 0%R)) Lx Ix L K1 K2) as (fpp & sp & s1 & s2 & Ef & Ec & Hk & Sm & Cb & M1 & M2).
  exists fpp, sp, s1, s2. do 5 (split; [assumption|]). intros s.
  assert (E : making as_int near_int c = Some (a, Ok (interp1_type, name, Cubic xs ys fpp))).
  { cbn [c SheetModel.making]. do 2 f_equal. unfold new_cubic. rewrite (text_read nm name false Tn). cbn [obind]. rewrite (numbers_read x xs false Tx Nx). cbn [obind]. rewrite (proj2 (increasing_iff xs) Ix). cbn [require].
    rewrite (numbers_read y ys false Ty Ny). cbn [obind]. rewrite L, Nat.eqb_refl. cbn [require]. rewrite (maybe_ints as_int near_int o os RO Fo To). cbn [obind].
    rewrite (proj2 (Nat.leb_le _ _) Lo). cbn [require]. assert (B : ((length os =? 0)%nat || (order_ok (hd 0%Z os) && order_ok (last os 0%Z))) = true).
    { clear - Fo. destruct os as [|k os]; [reflexivity|]. pose proof (last_all _ _ 0%Z Fo ltac:(discriminate)) as Q. inversion Fo; subst. cbv beta in *. cbn [hd length Nat.eqb orb]. unfold order_ok. lia. }
    rewrite B. cbn [require]. rewrite (maybe_read v vs Tv). cbn [obind]. rewrite (proj2 (Nat.leb_le _ _) Lv). cbn [require].
    assert (B2 : ((length vs =? 0)%nat || negb (length os =? 0)%nat) = true) by (destruct os; [rewrite Ov; reflexivity|cbn; now rewrite orb_true_r]). rewrite B2. cbn [require]. rewrite Ef. reflexivity. }
  split.
  - intros S0. apply (C78_kept before c [] a _ _ _ S0 E). constructor.
  - intros after f q qs S0 L0 Tf Tq Nq r inside. destruct (C78_kept before c after a _ _ _ S0 E L0) as (_ & _ & H). specialize (H f Tf).
    assert (Hb : InterpModel.back xs = Ok (nth (length xs - 1) xs 0%R)) by (clear - Lx; unfold InterpModel.back; destruct (length xs) as [|k] eqn:Ek; [lia|]; rewrite (Vec.get_ok xs k 0%R) by lia; do 2 f_equal; lia).
    assert (K : forall t, (inside t -> checked1 (Cubic xs ys fpp) t = Ok (sp t)) /\ (~ inside t -> checked1 (Cubic xs ys fpp) t = Throw)).
    { intros t. unfold checked1. cbn [is_in_bounds value1]. rewrite (Vec.get_ok xs 0 0%R) by lia. cbn [obind]. rewrite Hb. cbn [obind]. unfold inside. split.
      - intros [I1 I2]. destruct (Rle_dec (nth 0 xs 0%R) t); [|contradiction]. destruct (Rle_dec t (nth (length xs - 1) xs 0%R)); [|contradiction]. cbn [andb require]. apply Ec.
      - intros N. destruct (Rle_dec (nth 0 xs 0%R) t); [|reflexivity]. destruct (Rle_dec t (nth (length xs - 1) xs 0%R)); [|reflexivity]. exfalso. apply N. split; assumption. }
    split.
    + intros F. destruct (get_reply _ _ _ s qs (fun t w => w = sp t) H eq_refl Tq Nq) as (ws & Er & F2).
      * intros t Ht. exists (sp t). split; [|reflexivity]. apply K. now apply (proj1 (Forall_forall _ _) F).
      * unfold r. rewrite Er. do 2 f_equal. clear - F2. induction F2 as [|t w l k -> F IH]; cbn [map]; congruence.
    + intros (t & Ht & Nt). unfold r, SheetModel.step. cbn [SheetModel.making]. unfold interp1_get. rewrite H. cbn [obind s orest is_interp1 require]. rewrite (numbers_read q qs false Tq Nq). cbn [obind].
      rewrite (each_throw _ qs t Ht); [reflexivity|now apply K|]. intros u _. destruct (Rle_dec (nth 0 xs 0%R) u) as [A|A]; [destruct (Rle_dec u (nth (length xs - 1) xs 0%R)) as [A2|A2]|].
      * left. eexists. apply K. split; assumption.
      * right. apply K. intros [_ Q]. contradiction.
      * right. apply K. intros [Q _]. contradiction.
Qed.

(** Interpolation on a surface: the table has a row for each x and a column for each y; so has what comes back for the points asked. *)
Theorem C78_surface before after a nm x y z f qx qy name xs ys zs us vs :
  is_text nm name -> is_numbers x xs -> is_numbers y ys -> is_table z (length ys) zs -> increasing xs -> increasing ys -> xs <> [] -> ys <> [] -> length zs = length xs ->
  let s := Obj (lit "Interp2") name a (Linear2 xs ys zs) in
  let c := NewLinear2 a nm x y z in
  sensible_run [] (before ++ c :: after) -> Forall (leaves s) after -> is_text f (handle s) -> is_numbers qx us -> us <> [] -> is_numbers qy vs -> vs <> [] ->
  snd (step (session before) c) = Ok (one_text (handle s)) /\
  exists o rows, snd (step (session (before ++ c :: after)) (Get2 f qx qy)) = Ok o /\ shows_table o rows /\
    Forall2 (fun u row => Forall2 (fun v w => on_surface xs ys zs u v w) vs row) us rows.
Proof.
  intros Tn Tx Ty Tz Ix Iy Nx Ny L s c S0 L0 Tf Tu Nu Tv Nv. assert (Nz : zs <> []) by (intros ->; destruct xs; [congruence|discriminate]).
  assert (Ly : 1 <= length ys) by (destruct ys; [congruence|cbn; lia]). pose proof (proj1 Tz) as Fz.
  assert (Hz : length (hd [] zs) = length ys) by (destruct Fz; [congruence|assumption]).
  assert (E : making as_int near_int c = Some (a, Ok (interp2_type, name, Linear2 xs ys zs))).
  { cbn [c SheetModel.making]. do 2 f_equal. unfold new_linear2. rewrite (text_read nm name false Tn). cbn [obind]. rewrite (numbers_read x xs false Tx Nx). cbn [obind]. rewrite (proj2 (increasing_iff xs) Ix). cbn [require].
    rewrite (numbers_read y ys false Ty Ny). cbn [obind]. rewrite (proj2 (increasing_iff ys) Iy). cbn [require]. rewrite (table_read z (length ys) zs false Tz Nz Ly). cbn [obind].
    rewrite L, Nat.eqb_refl. cbn [require]. rewrite Hz, Nat.eqb_refl. cbn [require]. rewrite (monotone_of xs Ix), (monotone_of ys Iy). reflexivity. }
  destruct (C78_kept before c after a _ _ _ S0 E L0) as (R & _ & H). split; [exact R|]. specialize (H f Tf).
  assert (T : table xs ys zs) by (split; [exact L|]; intros k Hk; apply (proj1 (Forall_forall _ _) Fz); now apply nth_In).
  destruct (each_ok (fun u => each (fun v => interp2_linear xs ys zs u v) vs) (fun u row => Forall2 (fun v w => on_surface xs ys zs u v w) vs row) us) as (rows & Er & F).
  { intros u _. apply each_ok. intros v _. now apply surface_value. }
  assert (Fr : Forall (fun row => length row = length vs) rows).
  { clear - F. induction F as [|u row us rows Q F IH]; constructor; [|exact IH]. clear - Q. induction Q; cbn [length]; congruence. }
  assert (Nr : rows <> []) by (intros ->; inversion F; congruence). assert (Hr : length (hd [] rows) = length vs) by (destruct Fr; [congruence|assumption]).
  destruct (reply_table rows Nr) as (o & Eo & So); [rewrite Hr; exact Fr|]. exists o, rows. split; [|split; [exact So|exact F]].
  unfold SheetModel.step. cbn [SheetModel.making]. unfold interp2_get. rewrite H. cbn [obind s orest]. rewrite (numbers_read qx us false Tu Nu). cbn [obind]. rewrite (numbers_read qy vs false Tv Nv). cbn [obind].
  rewrite Er. cbn [then_reply snd]. exact Eo.
Qed.

(** A call that is answered with an error, or with no answer at all, changes nothing. *)
Theorem C78_failed m c : (forall v, snd (step m c) <> Ok v) -> fst (step m c) = m.
Proof.
  intros N. unfold SheetModel.step in *. destruct (making as_int near_int c) as [[a r]|].
  - destruct r as [[[ty n] s]| | |]; cbn [then_reply] in *; try reflexivity. exfalso. destruct (load uniq m (Obj ty n a s)) as [m' t]. apply (N _ (reply_text t)).
  - destruct c; try reflexivity; try (apply then_fst; reflexivity).
    + match goal with |- context [then_reply m ?r _] => destruct r as [g| | |] end; cbn [then_reply] in *; try reflexivity. destruct (find_where g m) as [|s l]; [reflexivity|].
      exfalso. cbn [load_all] in N. destruct (load uniq m s) as [m1 t]. destruct (load_all uniq m1 l) as [m2 ts]. destruct (reply_texts (t :: ts)) as (o & Eo & _); [discriminate|]. exact (N _ Eo).
    + match goal with |- context [then_reply m ?r _] => destruct r as [l| | |] end; cbn [then_reply] in *; try reflexivity. exfalso. destruct (erase_each uniq m l) as [m' k]. exact (N _ (reply_number _)).
Qed.

(** Listing: the handles of all the objects that match, each once; the size is their number. *)
Theorem C78_find before p t g : sensible_run [] before -> is_text p t -> regex t = Some g -> let m := session before in
  exists l, lists l (fun x => has m x /\ g (handle x) = true) /\ (l <> [] -> exists o, snd (step m (Find p)) = Ok o /\ shows_texts o (map handle l)) /\
  (l = [] -> exists o, snd (step m (Find p)) = Ok o /\ auto_free o = UB) /\
  exists n, snd (step m Size) = Ok (one_number (IZR n)) /\ counts n (has m).
Proof.
  intros S0 Tp Eg m. pose proof (session_inv before S0) as I0. fold m in I0. assert (Hm : forall x, has m x <-> holds m x) by (intros; apply has_holds, I0).
  destruct (found_held uniq m g I0) as [N1 N2]. exists (find_where g m). split; [split; [exact N1|]; intros x; rewrite N2, Hm, tag_handle; reflexivity|].
  destruct (load_all_spec uniq Huniq (find_where g m) m I0) as (Et & _ & _); [intros s Hs; apply N2 in Hs; apply Hs|].
  assert (E : snd (step m (Find p)) = reply [RVector (map CStr (map handle (find_where g m)))]).
  { unfold SheetModel.step. cbn [SheetModel.making]. rewrite (text_read p t false Tp). cbn [obind]. rewrite Eg. cbn [then_reply]. destruct (load_all uniq m (find_where g m)) as [m' ts]. cbn [fst snd] in *. rewrite Et.
    do 4 f_equal. apply map_ext. exact tag_handle. }
  split; [|split].
  - intros N. rewrite E. apply reply_texts. intros Q. apply N. now apply map_eq_nil in Q.
  - intros Q0. rewrite E, Q0. destruct (C76_no_rows_refuted (N:=R) (T:=R) IZR (fun t => t) [RVector []]) as (o & bl & Eo & Fo & _); [reflexivity|discriminate|]. exists o. split; [|exact Fo]. unfold reply. cbn [map]. rewrite Eo. reflexivity.
  - exists (size m). split; [apply reply_number|]. destruct I0 as [G _]. exists (map snd m). split; [split; [now apply (sorted_nodup uniq)|intros x; reflexivity]|]. unfold size. now rewrite map_length.
Qed.
(** A pattern that matches nothing is answered with a value that cannot be freed.  (The answer to every search can be read and freed: false.) *)
Theorem C78_find_nothing_refuted before p t g : sensible_run [] before -> is_text p t -> regex t = Some g -> (forall x, has (session before) x -> g (handle x) = false) ->
  exists o, snd (step (session before) (Find p)) = Ok o /\ auto_free o = UB.
Proof.
  intros S0 Tp Eg H. destruct (C78_find before p t g S0 Tp Eg) as (l & [_ L] & _ & N & _). apply N. destruct l as [|x l]; [reflexivity|]. exfalso. destruct (proj1 (L x) (or_introl eq_refl)) as [A B]. rewrite (H x A) in B. discriminate.
Qed.

(** An object is replaced by one of the same type and name: the old handle then names nothing, and the new one is the only one so named. *)
Theorem C78_replaced before c a ty n s x : sensible_run [] (before ++ [c]) -> making as_int near_int c = Some (a, Ok (ty, n, s)) -> n <> [] ->
  has (session before) x -> same_up_to_case (otype x) ty -> same_up_to_case (oname x) n ->
  let m' := session (before ++ [c]) in
  (forall o, is_text o (handle x) -> to_handle m' o = Throw) /\ forall y, has m' y -> same_up_to_case (otype y) ty -> same_up_to_case (oname y) n -> y = Obj ty n a s.
Proof.
  intros S0 E Nn Hx Tx Nx m'. pose proof (session_inv _ S0) as I1. fold m' in I1. pose proof S0 as S00. apply sensible_app in S0 as [S1 [S2 _]]. pose proof (session_inv before S1) as I0.
  assert (Em : m' = fst (step (session before) c)) by (unfold m', SheetSpec.session; rewrite run_fst, run_cons; reflexivity).
  destruct (step_made uniq Huniq regex as_int near_int (session before) c a ty n s I0 S2 E) as (_ & _ & H). rewrite <- Em in H.
  apply (has_holds uniq) in Hx; [|apply I0]. split.
  - intros o To. unfold to_handle. rewrite (text_read o _ false To). cbn [obind]. destruct (handle x) eqn:Eh; [reflexivity|]. rewrite <- Eh. destruct (fetch m' (handle x) false) as [r| | |] eqn:F; try reflexivity.
    + exfalso. destruct (fetch_inv uniq m' _ r I1 F) as (y & _ & Hy & Ty). rewrite <- tag_handle in Ty. pose proof Hy as Hy'. apply H in Hy as [->|[Hy Ry]].
      * apply (tag_same uniq Huniq) in Ty; [|eapply holds_wf; [apply I1|exact Hy']|eapply holds_wf; [apply I0|exact Hx]]. destruct Ty as (_ & _ & Ea). cbn [oaddr] in Ea.
        destruct (S2 a ty n s E) as [_ A]. apply (A x); [apply (has_holds uniq); [apply I0|exact Hx]|now symmetry].
      * assert (y = x). { apply (proj1 (proj2 I0)); auto. apply (tag_same uniq Huniq) in Ty; [apply Ty|eapply holds_wf; [apply I1|exact Hy']|eapply holds_wf; [apply I0|exact Hx]]. }
        subst y. apply Ry. cbn [replaced oname otype]. auto.
    + exfalso. unfold fetch in F. destruct (mfind ci_compare m' (handle x)); discriminate.
    + exfalso. unfold fetch in F. destruct (mfind ci_compare m' (handle x)); discriminate.
  - intros y Hy Ty Ny. apply (has_holds uniq) in Hy; [|apply I1]. apply H in Hy as [->|[_ Ry]]; [reflexivity|]. exfalso. apply Ry. cbn [replaced oname otype]. auto.
Qed.

(** A text that does not begin with a tilde, such as the text of an error, names nothing. *)
Theorem C78_error_text before f c0 t q x y : sensible_run [] before -> c0 <> "~"%char -> is_text f (c0 :: t) ->
  step (session before) (Get f q) = (session before, Throw) /\ step (session before) (Get2 f x y) = (session before, Throw) /\ step (session before) (Erase f) = (session before, Throw).
Proof.
  intros S0 Nc Tf. pose proof (session_inv before S0) as I0. assert (E : to_handle (session before) f = Throw).
  { unfold to_handle. rewrite (text_read f _ false Tf). cbn [obind]. unfold fetch. pose proof (mfind_holds uniq (session before) (c0 :: t) (proj1 I0)) as F. destruct (mfind ci_compare (session before) (c0 :: t)) as [o|]; [|reflexivity].
    exfalso. destruct F as [_ F]. apply same_sym in F. unfold tag, base_tag, type_tag in F. inversion F; subst. apply Nc. now apply tilde_same. }
  split; [|split]; unfold SheetModel.step; cbn [SheetModel.making].
  - unfold interp1_get. rewrite E. reflexivity.
  - unfold interp2_get. rewrite E. reflexivity.
  - assert (read_vector (to_handle (session before)) f false = Throw) as ->; [|reflexivity]. destruct Tf as (b & Ef & _). subst f. unfold read_vector. destruct (is_blank (OStr b (to_pascal (c0 :: t)))); [reflexivity|]. rewrite E. reflexivity.
Qed.

(** Points that do not ascend, or numbers of values that do not match, are refused, and nothing is made. *)
Theorem C78_refused m a nm x y name xs ys : is_text nm name -> is_numbers x xs -> is_numbers y ys -> xs <> [] -> ys <> [] ->
  (~ (increasing xs /\ length ys = length xs) ->
   step m (NewLinear a nm x y) = (m, Throw) /\ (forall l w, step m (NewSmoothed a nm x y l w) = (m, Throw)) /\ (forall o v, step m (NewCubic a nm x y o v) = (m, Throw))) /\
  (forall z c zs, is_table z c zs -> zs <> [] -> 1 <= c -> ~ (increasing xs /\ increasing ys /\ length zs = length xs /\ c = length ys) -> step m (NewLinear2 a nm x y z) = (m, Throw)).
Proof.
  intros Tn Tx Ty Nx Ny. assert (A : ~ (increasing xs /\ length ys = length xs) -> is_increasing xs = true -> (length ys =? length xs) = false) by (intros N Q; apply increasing_iff in Q; apply Nat.eqb_neq; tauto).
  split; [intros N; specialize (A N); split; [|split]|]; unfold SheetModel.step; cbn [SheetModel.making]; intros.
  - unfold new_linear. rewrite (text_read nm name false Tn). cbn [obind]. rewrite (numbers_read x xs false Tx Nx). cbn [obind]. destruct (is_increasing xs); [|reflexivity]. cbn [require]. rewrite (numbers_read y ys false Ty Ny). cbn [obind]. rewrite A; reflexivity.
  - unfold new_smoothed. rewrite (text_read nm name false Tn). cbn [obind]. rewrite (numbers_read x xs false Tx Nx). cbn [obind]. destruct (is_increasing xs); [|reflexivity]. cbn [require]. rewrite (numbers_read y ys false Ty Ny). cbn [obind]. rewrite A; reflexivity.
  - unfold new_cubic. rewrite (text_read nm name false Tn). cbn [obind]. rewrite (numbers_read x xs false Tx Nx). cbn [obind]. destruct (is_increasing xs); [|reflexivity]. cbn [require]. rewrite (numbers_read y ys false Ty Ny). cbn [obind]. rewrite A; reflexivity.
  - unfold new_linear2. rewrite (text_read nm name false Tn). cbn [obind]. rewrite (numbers_read x xs false Tx Nx). cbn [obind]. destruct (is_increasing xs) eqn:E1; [|reflexivity]. cbn [require].
    rewrite (numbers_read y ys false Ty Ny). cbn [obind]. destruct (is_increasing ys) eqn:E2; [|reflexivity]. cbn [require]. rewrite (table_read z c zs false H H0 H1). cbn [obind].
    destruct (Nat.eqb_spec (length zs) (length xs)) as [E3|]; [|reflexivity]. cbn [require]. destruct (Nat.eqb_spec (length (hd [] zs)) (length ys)) as [E4|]; [|reflexivity]. exfalso. apply H2.
    apply increasing_iff in E1, E2. repeat split; auto. destruct H as [F _]. destruct F; [congruence|]. cbn [hd] in E4. congruence.
Qed.
End C78.

Print Assumptions C78_sensible.
Print Assumptions C78_held.
Print Assumptions C78_kept.
Print Assumptions C78_linear.
Print Assumptions C78_smoothed.
Print Assumptions C78_cubic.
Print Assumptions C78_surface.
Print Assumptions C78_failed.
Print Assumptions C78_find.
Print Assumptions C78_find_nothing_refuted.
Print Assumptions C78_replaced.
Print Assumptions C78_error_text.
Print Assumptions C78_refused.
Lemma quote_same c : same_letter c "'"%char -> c = "'"%char.
Proof.
  pose proof (code_range c). unfold same_letter. change (code "'") with 39%Z. intros [E|[E|E]].
  - apply code_inj. exact E.
  - exfalso. assert (code c = 7)%Z as Q by lia. rewrite Q in E. vm_compute in E. destruct E as [[E1 E2] _]. now apply E1.
  - exfalso. destruct E as [[E _] _]. vm_compute in E. now apply E.
Qed.
Lemma drop_same x y a b : same_up_to_case (x :: a) (y :: b) -> same_up_to_case a b.
Proof. intros H. now inversion H. Qed.
Lemma take_same a y b : same_up_to_case a (y :: b) -> exists x r, a = x :: r /\ same_letter x y /\ same_up_to_case r b.
Proof. intros H. inversion H; subst. eauto. Qed.
Lemma knock_on_start l : ci_eqb (firstn 29 (lit "#Error:  " ++ l)) knock_on = true -> exists a b c r, l = a :: b :: c :: "'"%char :: r /\ same_letter a "C"%char.
Proof.
  intros H. apply ci_eqb_iff in H. change (lit "#Error:  ") with ["#"; "E"; "r"; "r"; "o"; "r"; ":"; " "; " "]%char in H. cbn [app firstn] in H.
  unfold knock_on in H. cbn [lit list_ascii_of_string] in H. do 9 apply drop_same in H.
  destruct l as [|a [|b [|c [|d r]]]]; cbn [firstn] in H;
    apply take_same in H as (x1 & r1 & E1 & S1 & H); try discriminate; apply take_same in H as (x2 & r2 & E2 & S2 & H); try congruence;
    apply take_same in H as (x3 & r3 & E3 & S3 & H); try congruence; apply take_same in H as (x4 & r4 & E4 & S4 & H); try congruence.
  apply quote_same in S4. exists a, b, c, r. assert (x1 = a) by congruence. subst x1. assert (d = x4) by congruence. subst. auto.
Qed.
Lemma string_app_list a b : list_ascii_of_string (a ++ b) = (list_ascii_of_string a ++ list_ascii_of_string b)%list.
Proof. induction a as [|c a IH]; [reflexivity|]. cbn. now rewrite IH. Qed.

(** The text shown for an error names the argument; an error text passed on as a handle is not shown again by itself: the message that
    is recognised as a knock-on error is never the one that is raised.  (An error text passed on is shown as it was: false.) *)
Theorem C78_knock_on_refuted file line func msg rest arg : ~ In "'"%char (list_ascii_of_string func) ->
  let shown (m : string) := (lit "#Error:  " ++ list_ascii_of_string m ++ match arg with Some a => lit "(at input '" ++ a ++ lit "')" | None => [] end)%list in
  let gcc := (format file line func msg ++ rest)%string in
  let windows := (format_windows file line func msg ++ rest)%string in
  x_error (list_ascii_of_string gcc) arg = shown gcc /\ x_error (list_ascii_of_string windows) arg = shown windows.
Proof.
  intros Nq shown gcc windows.
  assert (K : forall m : string, ~ (exists a b c r, list_ascii_of_string m = a :: b :: c :: "'"%char :: r /\ same_letter a "C"%char) -> x_error (list_ascii_of_string m) arg = shown m).
  { intros m N. unfold x_error. change (length knock_on) with 29. destruct (ci_eqb (firstn 29 (lit "#Error:  " ++ list_ascii_of_string m)) knock_on) eqn:E; [exfalso; apply N; now apply knock_on_start|].
    unfold shown. destruct arg; [now rewrite <- app_assoc|now rewrite app_nil_r]. }
  assert (NL : ~ same_letter (ascii_of_nat 10) "C"%char) by (unfold same_letter; vm_compute; intros [Q|[[_ Q]|[_ Q]]]; discriminate).
  assert (NC : ~ same_letter ":"%char "C"%char) by (unfold same_letter; vm_compute; intros [Q|[[_ Q]|[_ Q]]]; discriminate).
  split; apply K; intros (a & b & c & r & E & S1).
  - unfold gcc, format, newline in E. cbn [append list_ascii_of_string] in E. assert (a = ascii_of_nat 10) by congruence. subst. auto.
  - unfold windows, format_windows in E. destruct (String.eqb func "(unknown)").
    + cbn [append newline list_ascii_of_string] in E. assert (a = ascii_of_nat 10) by congruence. subst. auto.
    + destruct func as [|f0 [|f1 [|f2 [|f3 func]]]]; cbn [append newline list_ascii_of_string] in E, Nq; injection E as E0 E1 E2 E3 E4; subst; auto; try discriminate.
      apply Nq. cbn. auto.
Qed.
Print Assumptions C78_knock_on_refuted.

(** A session: a linear interpolator named f, a smoothed one, a cubic one without a name, a surface, then one named f again. *)
Definition text (s : str) : value := OStr 7 (to_pascal s).
Definition numbers (l : list R) : value := OMulti 3 (length l) 1 (map ONum l).
Definition whole (x : R) : outcome Z := Ok (up x - 1)%Z.
Definition any (_ : R) (_ : Z) : bool := true.
Definition all_of (s : str) : option (str -> bool) := Some (fun _ => true).
Definition calls : list call :=
  [NewLinear 16 (text (lit "f")) (numbers [1; 2; 4]%R) (numbers [5; 6; 8]%R);
   NewSmoothed 32 (text (lit "g")) (numbers [1; 2; 4]%R) (numbers [5; 6; 8]%R) (ONum 3%R) OMissing;
   NewCubic 48 (text []) (numbers [1; 2; 4]%R) (numbers [5; 6; 8]%R) (numbers [2]%R) (numbers [0]%R);
   NewLinear2 64 (text (lit "h")) (numbers [1; 2]%R) (numbers [1; 2; 4]%R) (OMulti 3 2 3 [ONum 1%R; ONum 2%R; ONum 3%R; ONum 4%R; ONum 5%R; ONum 6%R]);
   Find (text (lit ".*")); Size; NewLinear 80 (text (lit "F")) (numbers [1; 2]%R) (numbers [5; 6]%R)].
Lemma reads_whole : reads_orders whole any.
Proof.
  intros k _. unfold whole, any. split; [|reflexivity]. f_equal. assert (up (IZR k) = (k + 1)%Z) as ->; [|lia]. symmetry. apply tech_up; rewrite plus_IZR; lra.
Qed.
Lemma is_text_ok s : length s <= 1000 -> ~ In "000"%char s -> is_text (text s) s.
Proof. intros L N. exists 7. split; [reflexivity|]. split; [|exact N]. apply Nat2Z.inj_le. rewrite Z2Nat.id; lia. Qed.
Lemma leaves_name uniq as_int near_int s c : (forall h, c <> Erase h) -> (forall o n, name_of c = Some o -> to_string o false = Ok n -> n = [] \/ ~ same_up_to_case n (oname s)) -> leaves uniq as_int near_int s c.
Proof.
  intros N H. split; [|intros h l E; now elim (N h)]. intros a ty n x E Nn _. destruct (made_name as_int near_int c a ty n x E) as (_ & o & Eo & En). destruct (H o n Eo En); [contradiction|assumption].
Qed.
Lemma text_back s : length s <= 1000 -> ~ In "000"%char s -> to_string (text s) false = Ok s.
Proof. intros. apply text_read, is_text_ok; assumption. Qed.
Definition the_f : object shape := Obj (lit "Interp1") (lit "f") 16 (Linear [1; 2; 4]%R [5; 6; 8]%R).
Example C78_case : address_text address /\ sensible_run address all_of whole any [] calls /\ reads_orders whole any /\
  is_text (text (lit "f")) (lit "f") /\ is_numbers (numbers [1; 2; 4]%R) [1; 2; 4]%R /\ increasing [1; 2; 4]%R /\ is_maybe OMissing [] /\ is_maybe (numbers [2]%R) (map IZR [2%Z]) /\
  is_table (OMulti 3 2 3 [ONum 1%R; ONum 2%R; ONum 3%R; ONum 4%R; ONum 5%R; ONum 6%R]) 3 [[1; 2; 3]; [4; 5; 6]]%R /\
  weights [] 3 /\ Forall (leaves address whole any the_f) (firstn 5 (skipn 1 calls)) /\
  is_text (text (handle address the_f)) (handle address the_f) /\
  has (session address all_of whole any (firstn 6 calls)) the_f /\ ~ has (session address all_of whole any calls) the_f.
Proof.
  assert (Inc : increasing [1; 2; 4]%R) by (intros [|[|[|i]]] [|[|[|j]]] Hij; cbn in *; try lia; lra).
  assert (Inc2 : increasing [1; 2]%R) by (intros [|[|i]] [|[|j]] Hij; cbn in *; try lia; lra).
  assert (Tn : forall l, is_numbers (numbers l) l) by (intros l; exists 3; left; reflexivity).
  assert (Sr : sensible_run address all_of whole any [] calls).
  { apply C78_sensible; [exact address_ok| |].
    - unfold calls. repeat (apply Forall_cons; [intros o n Eo En; cbn [name_of] in Eo; try discriminate; match type of Eo with Some ?x = _ => assert (o = x) by congruence end; subst o;
        rewrite text_back in En by (cbn; (lia || intuition discriminate)); match type of En with Ok ?x = _ => assert (n = x) by congruence end; subst n; cbn; intuition discriminate|]). constructor.
    - cbn. repeat constructor; cbn; intuition discriminate. }
  assert (Lv : Forall (leaves address whole any the_f) (firstn 5 (skipn 1 calls))).
  { unfold calls. cbn [firstn skipn]. repeat (apply Forall_cons; [apply leaves_name; [discriminate|]; intros o n Eo En; cbn [name_of] in Eo; try discriminate; match type of Eo with Some ?x = _ => assert (o = x) by congruence end; subst o;
        rewrite text_back in En by (cbn; (lia || intuition discriminate)); match type of En with Ok ?x = _ => assert (n = x) by congruence end; subst n; try (now left); right; intros Q; apply ci_eqb_iff in Q; vm_compute in Q; discriminate|]). constructor. }
  assert (Mf : making whole any (nth 0 calls Size) = Some (16%Z, Ok (lit "Interp1", lit "f", Linear [1; 2; 4]%R [5; 6; 8]%R))).
  { cbn [nth calls making]. do 2 f_equal. apply made_linear; auto; [apply is_text_ok; cbn; [lia|intuition discriminate]|discriminate]. }
  assert (MF : making whole any (nth 6 calls Size) = Some (80%Z, Ok (lit "Interp1", lit "F", Linear [1; 2]%R [5; 6]%R))).
  { cbn [nth calls making]. do 2 f_equal. apply made_linear; auto; [apply is_text_ok; cbn; [lia|intuition discriminate]|discriminate]. }
  assert (S6 : sensible_run address all_of whole any [] (firstn 6 calls)) by (change calls with (firstn 6 calls ++ [nth 6 calls Size]) in Sr; now apply sensible_app in Sr).
  assert (H6 : has (session address all_of whole any (firstn 6 calls)) the_f).
  { change (firstn 6 calls) with ([] ++ nth 0 calls Size :: firstn 5 (skipn 1 calls)). apply (C78_kept address address_ok all_of whole any [] (nth 0 calls Size) _ 16%Z _ _ _ S6 Mf Lv). }
  split; [exact address_ok|]. split; [exact Sr|]. split; [exact reads_whole|].
  split; [apply is_text_ok; cbn; [lia|intuition discriminate]|]. split; [apply Tn|]. split; [exact Inc|]. split; [left; split; reflexivity|].
  split; [right; split; [apply Tn|discriminate]|]. split; [split; [repeat constructor|exists 3; reflexivity]|]. split; [now left|]. split; [exact Lv|].
  split; [apply is_text_ok; vm_compute; [lia|intuition discriminate]|]. split; [exact H6|].
  assert (SF : sensible_run address all_of whole any [] (firstn 6 calls ++ [nth 6 calls Size])) by exact Sr.
  destruct (C78_replaced address address_ok all_of whole any (firstn 6 calls) (nth 6 calls Size) _ _ _ _ the_f SF MF) as [_ Q]; [discriminate|exact H6|apply same_refl|apply ci_eqb_iff; reflexivity|].
  intros H. assert (the_f = Obj (lit "Interp1") (lit "F") 80 (Linear [1; 2]%R [5; 6]%R)) as E; [|discriminate E].
  apply Q; [exact H|apply same_refl|apply ci_eqb_iff; reflexivity].
Qed.
Print Assumptions C78_case.
(** were the message to begin as expected, the error text would be shown as it was *)
Example C78_knock_on_case : ~ In "'"%char (list_ascii_of_string "Fetch") /\ x_error (lit "Can't find object '#Error:  bad input'") (Some (lit "f")) = lit "#Error:  bad input".
Proof. split; [cbn; intuition discriminate|reflexivity]. Qed.

(** Generators kept in the repository. *)
From Coq Require Import String Ascii ZArith List Bool Lia Arith.
From Coq Require Import Floats.SpecFloat.
From Verif Require Import Base StringModel StringSpec StringProofs OMap DateModel RandomModel RandomSpec RandomProofs RepoModel RepoSpec RepoProofs SheetModel SheetSpec SheetProofs RsgModel RsgSpec.
Import ListNotations.
Open Scope Z_scope.

Lemma w32_word z : word (w32 z).
Proof. unfold word, w32. apply Z.mod_pos_bound. reflexivity. Qed.
(** * one generator *)
Section One.
Variable icdf : spec_float -> spec_float.
Definition sound {G} (Inv : G -> Prop) (d : nat) (r : rng G) : Prop := length (cache r) = d /\ Inv (gen r) /\ (anti r = true -> Forall margin (cache r)).
Definition good_machine (d : nat) (m : machine) : Prop := match m with inl r => sound (irn_inv 128) d r | inr r => sound mrg_inv d r end.
Lemma fill_uniform_sound {G} (next : G -> outcome (spec_float * G)) (Inv : G -> Prop) (H : forall g, Inv g -> exists u g', next g = Ok (u, g') /\ Inv g' /\ margin u) d r :
  sound Inv d r -> exists row r', fill_uniform next (length (cache r)) r = Ok (row, r') /\ sound Inv d r' /\ length row = d /\ Forall open01 row.
Proof.
  intros (L & I0 & A). unfold fill_uniform. rewrite Nat.ltb_irrefl. destruct (anti r) eqn:E.
  - eexists _, _. split; [reflexivity|]. rewrite firstn_all. split; [split; [exact L|]; split; [exact I0|discriminate]|]. split; [now rewrite map_length|].
    rewrite Forall_map. eapply Forall_impl; [|exact (A eq_refl)]. intros u Hu. apply margin_open, margin_flip, Hu.
  - destruct (draws_inv next Inv H (length (cache r)) (gen r) I0) as (l & g & E2 & Hg & F & Ll). rewrite E2. cbn [obind fst snd]. eexists _, _. split; [reflexivity|]. rewrite skipn_all, app_nil_r.
    split; [split; [cbn [cache]; lia|]; split; [exact Hg|intros _; exact F]|]. split; [lia|]. eapply Forall_impl; [|exact F]. intros u. apply margin_open.
Qed.
Lemma fill_normal_sound {G} (next : G -> outcome (spec_float * G)) (Inv : G -> Prop) (H : forall g, Inv g -> exists u g', next g = Ok (u, g') /\ Inv g' /\ margin u) d r :
  sound Inv d r -> exists us row r', fill_normal next icdf (length (cache r)) r = Ok (row, r') /\ sound Inv d r' /\ length us = d /\ row = map icdf us /\ Forall open01 us.
Proof.
  intros (L & I0 & A). unfold fill_normal. destruct (draws_inv next Inv H (length (cache r)) (gen r) I0) as (l & g & E2 & Hg & F & Ll). rewrite E2. cbn [obind fst snd]. eexists l, _, _. split; [reflexivity|].
  split; [split; [exact L|]; split; [exact Hg|exact A]|]. split; [lia|]. split; [reflexivity|]. eapply Forall_impl; [|exact F]. intros u. apply margin_open.
Qed.
(** the rows allowed in each mode *)
Definition row_ok (w : mode) (d : nat) (row : list spec_float) : Prop :=
  match w with Uniforms => length row = d /\ Forall open01 row | Normals => exists us, length us = d /\ row = map icdf us /\ Forall open01 us end.
Lemma fill_ok w d m : good_machine d m -> exists row m', fill icdf w m = Ok (row, m') /\ good_machine d m' /\ row_ok w d row.
Proof.
  destruct m as [r|r], w; cbn [good_machine fill row_ok]; intros S0.
  - destruct (fill_uniform_sound irn_next (irn_inv 128) irn_next_ok d r S0) as (row & r' & E & S1 & Q). rewrite E. cbn [obind fst snd]. eexists _, _. split; [reflexivity|]. split; [exact S1|exact Q].
  - destruct (fill_normal_sound irn_next (irn_inv 128) irn_next_ok d r S0) as (us & row & r' & E & S1 & Q). rewrite E. cbn [obind fst snd]. eexists _, _. split; [reflexivity|]. split; [exact S1|eauto].
  - destruct (fill_uniform_sound mrg_next mrg_inv mrg_next_inv d r S0) as (row & r' & E & S1 & Q). rewrite E. cbn [obind fst snd]. eexists _, _. split; [reflexivity|]. split; [exact S1|exact Q].
  - destruct (fill_normal_sound mrg_next mrg_inv mrg_next_inv d r S0) as (us & row & r' & E & S1 & Q). rewrite E. cbn [obind fst snd]. eexists _, _. split; [reflexivity|]. split; [exact S1|eauto].
Qed.
Lemma rows_ok w d n : forall m, good_machine d m -> exists l m', rows icdf w n m = Ok (l, m') /\ good_machine d m' /\ length l = n /\ Forall (row_ok w d) l.
Proof.
  induction n as [|n IH]; intros m H; cbn [rows]; [exists [], m; auto|]. destruct (fill_ok w d m H) as (row & m1 & -> & H1 & R). cbn [obind fst snd].
  destruct (IH m1 H1) as (l & m2 & -> & H2 & L & F). cbn [obind fst snd]. eexists _, _. split; [reflexivity|]. cbn [length]. auto.
Qed.
Lemma new_machine_good k seed dim m : new_machine k seed dim = Ok m -> 0 <= dim /\ good_machine (Z.to_nat dim) m.
Proof.
  unfold new_machine. destruct (Z.ltb_spec dim 0) as [|Hd]; [discriminate|]. intros E. split; [exact Hd|]. destruct k.
  - destruct (irn_new_ok seed) as (g & Eg & I0). rewrite Eg in E. cbn [obind] in E. injection E as <-. split; [apply repeat_length|]. split; [exact I0|discriminate].
  - destruct (seed =? 2 ^ 31 - 1); [discriminate|]. injection E as <-. split; [apply repeat_length|]. split; [|discriminate].
    cbn [gen rng_new]. exists (w32 seed), (w32 (seed + 1)), (w32 seed, w32 seed, w32 seed), (w32 (seed + 1), w32 (seed + 1), w32 (seed + 1)). split; [reflexivity|]. cbn [words]. auto 8 using w32_word.
Qed.
Lemma rows_app w n : forall k m, rows icdf w (n + k) m = (do p <- rows icdf w n m; do q <- rows icdf w k (snd p); Ok (fst p ++ fst q, snd q))%list.
Proof.
  induction n as [|n IH]; intros k m; cbn [rows Nat.add].
  - cbn [obind fst snd app]. destruct (rows icdf w k m) as [[l m']| | |]; reflexivity.
  - destruct (fill icdf w m) as [[row m1]| | |]; cbn [obind fst snd]; try reflexivity. rewrite IH. destruct (rows icdf w n m1) as [[l m2]| | |]; cbn [obind fst snd]; try reflexivity.
    destruct (rows icdf w k m2) as [[l' m3]| | |]; reflexivity.
Qed.
Lemma rows_uniforms n : forall r l m', rows icdf Uniforms n (inr r) = Ok (l, m') -> uniforms mrg_next n r = Ok l.
Proof.
  induction n as [|n IH]; intros r l m' E; cbn [rows uniforms fill] in *; [congruence|]. destruct (fill_uniform mrg_next (length (cache r)) r) as [[row r1]| | |]; cbn [obind fst snd] in *; try discriminate.
  destruct (rows icdf Uniforms n (inr r1)) as [[l1 m1]| | |] eqn:E1; cbn [obind fst snd] in E; try discriminate. rewrite (IH _ _ _ E1). cbn [obind]. congruence.
Qed.
Lemma rows_uniforms_irn n : forall r l m', rows icdf Uniforms n (inl r) = Ok (l, m') -> uniforms irn_next n r = Ok l.
Proof.
  induction n as [|n IH]; intros r l m' E; cbn [rows uniforms fill] in *; [congruence|]. destruct (fill_uniform irn_next (length (cache r)) r) as [[row r1]| | |]; cbn [obind fst snd] in *; try discriminate.
  destruct (rows icdf Uniforms n (inl r1)) as [[l1 m1]| | |] eqn:E1; cbn [obind fst snd] in E; try discriminate. rewrite (IH _ _ _ E1). cbn [obind]. congruence.
Qed.
(** two rows of uniforms from a generator about to draw afresh *)
Definition rested (m : machine) : Prop := match m with inl r => anti r = false | inr r => anti r = false end.
Lemma pair_fill d m : good_machine d m -> rested m -> exists row m1 m2, fill icdf Uniforms m = Ok (row, m1) /\ fill icdf Uniforms m1 = Ok (mirror row, m2) /\ good_machine d m2 /\ rested m2.
Proof.
  intros G0 R0. destruct (fill_ok Uniforms d m G0) as (row & m1 & E1 & G1 & _). destruct (fill_ok Uniforms d m1 G1) as (row2 & m2 & E2 & G2 & _). exists row, m1, m2. split; [exact E1|].
  assert (row2 = mirror row /\ rested m2) as [-> R2]; [|auto].
  destruct m as [r|r]; cbn [rested fill] in *; unfold fill_uniform in E1; rewrite Nat.ltb_irrefl, R0 in E1;
    match type of E1 with context [draws ?nx ?n ?g] => destruct (draws nx n g) as [[l g']| | |] eqn:D; cbn [obind fst snd] in E1; try discriminate end; injection E1 as E1a E1b; subst row m1;
    rewrite skipn_all, app_nil_r in E2; cbn [fill] in E2; unfold fill_uniform in E2; cbn [cache anti gen] in E2; rewrite Nat.ltb_irrefl, firstn_all in E2; cbn [obind fst snd] in E2; injection E2 as <- <-; split; reflexivity.
Qed.
Lemma pair_rows d n : forall m, good_machine d m -> rested m -> forall k l m', rows icdf Uniforms n m = Ok (l, m') -> (S (2 * k) < n)%nat -> nth (S (2 * k)) l [] = mirror (nth (2 * k) l []).
Proof.
  induction n as [n IH] using lt_wf_ind. intros m G0 R0 k l m' E Hk. destruct n as [|[|n]]; try lia. destruct (pair_fill d m G0 R0) as (row & m1 & m2 & E1 & E2 & G2 & R2).
  cbn [rows] in E. rewrite E1 in E. cbn [obind fst snd] in E. rewrite E2 in E. cbn [obind fst snd] in E. destruct (rows icdf Uniforms n m2) as [[l2 m3]| | |] eqn:E3; cbn [obind fst snd] in E; try discriminate.
  injection E as <- <-. destruct k as [|k]; [reflexivity|]. replace (2 * S k)%nat with (S (S (2 * k))) by lia. cbn [nth]. apply (IH n ltac:(lia) m2 G2 R2 k l2 m3 E3). lia.
Qed.
Lemma new_rested k seed dim m : new_machine k seed dim = Ok m -> rested m.
Proof.
  unfold new_machine. destruct (dim <? 0); [discriminate|]. destruct k; [destruct (irn_of_seed seed); cbn [obind]; try discriminate|destruct (seed =? 2 ^ 31 - 1); [discriminate|]]; intros E; injection E as <-; reflexivity.
Qed.
(** names *)
Lemma equivalent_no_tilde p : forall q, equivalent p q = Ok true -> ~ In "~"%char q -> ~ In "~"%char p.
Proof.
  induction p as [|c p IH]; intros q E N; [auto|]. cbn [equivalent] in E. destruct (128 <=? code c); [discriminate|]. destruct (is_fluff c) eqn:F.
  - intros [->|H]; [discriminate F|exact (IH q E N H)].
  - destruct q as [|d q]; [discriminate|]. destruct (ceq c d) eqn:C; [|discriminate]. intros [->|H].
    + apply ceq_same in C. apply N. left. assert (Q : same_up_to_case [d] ["~"%char]) by (apply same_sym; constructor; [exact C|constructor]). inversion Q; subst. now apply tilde_same.
    + apply (IH q E); [|exact H]. intros Q. apply N. now right.
Qed.
Lemma parse_known s k : parse_kind s = Ok k -> exists n, In n known_names /\ equivalent s n = Ok true.
Proof.
  unfold parse_kind, known_names. destruct s as [|c s]; [discriminate|].
  destruct (equivalent (c :: s) (lit "IRN"%string)) as [[|]| | |] eqn:E1; cbn [obind]; try discriminate; [eauto using in_eq|].
  destruct (equivalent (c :: s) (lit "SHUFFLEDIRN"%string)) as [[|]| | |] eqn:E2; cbn [obind]; try discriminate; [intros _; eexists; split; [|exact E2]; cbn; auto|].
  destruct (equivalent (c :: s) (lit "MRG32"%string)) as [[|]| | |] eqn:E3; cbn [obind]; try discriminate; [intros _; eexists; split; [|exact E3]; cbn; auto|].
  destruct (equivalent (c :: s) (lit "MRG32K32A"%string)) as [[|]| | |] eqn:E4; cbn [obind]; try discriminate. intros _; eexists; split; [|exact E4]; cbn; auto.
Qed.
Lemma parse_name s k : parse_kind s = Ok k -> s <> [] /\ ~ In "~"%char s.
Proof.
  intros E. split; [intros ->; discriminate|]. destruct (parse_known s k E) as (n & Hn & En). apply (equivalent_no_tilde s n En). cbn in Hn. destruct Hn as [<-|[<-|[<-|[<-|[]]]]]; cbn; intuition discriminate.
Qed.
End One.

(** * sessions *)
Section Session.
Variable icdf : spec_float -> spec_float.
Variable uniq : Z -> str.
Hypothesis Huniq : address_text uniq.
Notation holds := (holds (P:=shape) uniq).
Notation inv := (inv uniq).
Notation step := (step icdf uniq).
Notation run := (run icdf uniq).
Definition winv (w : world) : Prop := inv (repo w) /\ forall x, holds (repo w) x -> otype x = lit "PseudoRSG"%string.
Lemma at_new h a g : at_address ((a, g) :: h) a = Some g.
Proof. unfold at_address. cbn [find fst]. now rewrite Z.eqb_refl. Qed.
Lemma at_other h a g b : a <> b -> at_address ((a, g) :: h) b = at_address h b.
Proof. intros N. unfold at_address. cbn [find fst]. destruct (Z.eqb_spec a b); [congruence|reflexivity]. Qed.
Lemma winv_start : winv start.
Proof. split; [apply inv_nil|]. intros x []. Qed.
(** making a generator *)
Lemma step_make w a n seed dim g : winv w -> sensible w (Make a n seed dim) -> new_generator n seed dim = Ok g -> let s := Obj (lit "PseudoRSG"%string) n a Other in
  winv (fst (step w (Make a n seed dim))) /\ snd (step w (Make a n seed dim)) = Ok (AHandle (tag uniq s)) /\ at_address (heap (fst (step w (Make a n seed dim)))) a = Some g /\
  forall x, holds (repo (fst (step w (Make a n seed dim)))) x <-> x = s \/ (holds (repo w) x /\ ~ same_up_to_case (oname x) n).
Proof.
  intros [I0 T0] S0 E s. cbn [RsgModel.step]. rewrite E. fold s. unfold new_generator in E. destruct (parse_kind n) as [k| | |] eqn:Ek; cbn [obind] in E; try discriminate. destruct (parse_name n k Ek) as [Nn Nt].
  assert (P : presentable (holds (repo w)) s). { split; [cbn; intuition discriminate|]. split; [exact Nt|]. intros x Hx Ea. exfalso. cbn [sensible] in S0. apply (S0 x); [|exact Ea]. apply (has_holds uniq _ _ (proj1 I0)). exact Hx. }
  destruct (load_spec uniq Huniq (repo w) s I0 P) as (Et & I1 & H). destruct (load uniq (repo w) s) as [m t]. cbn [fst snd repo heap] in *. subst t.
  assert (H' : forall x, holds m x <-> x = s \/ (holds (repo w) x /\ ~ same_up_to_case (oname x) n)).
  { intros x. rewrite H. split; (intros [Q|[Q R]]; [now left|right; split; [exact Q|]]).
    - intros R'. apply R. cbn [replaced oname otype s]. split; [exact Nn|]. split; [rewrite (T0 x Q); apply same_refl|exact R'].
    - intros (_ & _ & R'). exact (R R'). }
  split; [split; [exact I1|]|split; [reflexivity|split; [apply at_new|exact H']]].
  intros x Hx. apply H' in Hx as [->|[Hx _]]; [reflexivity|auto].
Qed.
(** dropping one *)
Lemma step_drop w f : winv w -> (forall s, holds (repo w) s -> same_up_to_case f (tag uniq s) ->
    winv (fst (step w (Drop f))) /\ heap (fst (step w (Drop f))) = heap w /\ forall x, holds (repo (fst (step w (Drop f)))) x <-> holds (repo w) x /\ x <> s) /\
  ((forall s, holds (repo w) s -> ~ same_up_to_case f (tag uniq s)) -> fst (step w (Drop f)) = w).
Proof.
  intros [I0 T0]. split.
  - intros s Hs Et. cbn [RsgModel.step]. rewrite (fetch_held uniq Huniq (repo w) s f I0 Hs Et).
    destruct (erase_each_spec uniq Huniq [s] (repo w) I0) as (I1 & H1 & _). { intros x [<-|[]]. now apply presentable_held. }
    destruct (erase_each uniq (repo w) [s]) as [m n]. cbn [fst snd repo heap] in *.
    assert (H' : forall x, holds m x <-> holds (repo w) x /\ x <> s). { intros x. rewrite H1. cbn [In]. split; (intros [A B]; split; [exact A|]); [intros ->; apply B; now left|intros [->|[]]; now apply B]. }
    split; [split; [exact I1|intros x Hx; apply T0; now apply H']|]. split; [reflexivity|exact H'].
  - intros N. cbn [RsgModel.step]. destruct (fetch (repo w) f false) as [[s|]| | |] eqn:E; try reflexivity. destruct (fetch_inv uniq (repo w) f _ I0 E) as (x & Ex & Hx & Et). exfalso. exact (N x Hx (same_sym _ _ Et)).
Qed.
(** drawing *)
Lemma step_draw w mo f n s g : winv w -> holds (repo w) s -> same_up_to_case f (tag uniq s) -> at_address (heap w) (oaddr s) = Some g ->
  step w (Draw mo f n) = match get icdf mo n g with
                         | Ok (l, g') => (World (repo w) ((oaddr s, g') :: heap w), Ok (ARows l))
                         | Throw => (w, Throw) | UB => (w, UB) | OutOfFuel => (w, OutOfFuel) end.
Proof.
  intros [I0 T0] Hs Et Eg. cbn [RsgModel.step]. unfold the_generator. rewrite (fetch_held uniq Huniq (repo w) s f I0 Hs Et). cbn [obind]. rewrite Eg. cbn [obind fst snd]. destruct (get icdf mo n g) as [[l g']| | |]; reflexivity.
Qed.
Lemma step_draw_other w mo f n s : winv w -> holds (repo w) s -> ~ same_up_to_case f (tag uniq s) ->
  repo (fst (step w (Draw mo f n))) = repo w /\ at_address (heap (fst (step w (Draw mo f n)))) (oaddr s) = at_address (heap w) (oaddr s).
Proof.
  intros [I0 T0] Hs N. cbn [RsgModel.step]. unfold the_generator. destruct (fetch (repo w) f false) as [o| | |] eqn:E; cbn [obind]; auto. destruct (fetch_inv uniq (repo w) f o I0 E) as (x & -> & Hx & Et).
  destruct (at_address (heap w) (oaddr x)) as [g|]; cbn [obind]; auto. cbn [fst snd]. destruct (get icdf mo n g) as [[l g']| | |]; cbn [obind fst repo heap]; auto.
  split; [reflexivity|]. apply at_other. intros Ea. apply N. rewrite <- (proj1 (proj2 I0) x s Hx Hs Ea). now apply same_sym.
Qed.
Lemma draw_repo w mo f n : repo (fst (step w (Draw mo f n))) = repo w.
Proof. cbn [RsgModel.step]. destruct (do p <- the_generator w f; do r <- get icdf mo n (snd p); Ok (oaddr (fst p), r)) as [[a [l g]]| | |]; reflexivity. Qed.
Lemma step_winv w c : winv w -> sensible w c -> winv (fst (step w c)).
Proof.
  intros I0 S0. destruct c as [a n seed dim|mo f n|f].
  - destruct (new_generator n seed dim) as [g| | |] eqn:E; [exact (proj1 (step_make w a n seed dim g I0 S0 E))|..]; cbn [RsgModel.step]; rewrite E; exact I0.
  - unfold winv. rewrite draw_repo. exact I0.
  - destruct (step_drop w f I0) as [D1 D2]. cbn [RsgModel.step] in *. destruct (fetch (repo w) f false) as [[s|]| | |] eqn:E; try exact I0. destruct (fetch_inv uniq (repo w) f _ (proj1 I0) E) as (x & Ex & Hx & Et).
    exact (proj1 (D1 x Hx (same_sym _ _ Et))).
Qed.
Lemma step_keeps w c s : winv w -> sensible w c -> leaves uniq s c -> holds (repo w) s -> holds (repo (fst (step w c))) s /\
  ((forall mo f n, c = Draw mo f n -> ~ same_up_to_case f (tag uniq s)) -> at_address (heap (fst (step w c))) (oaddr s) = at_address (heap w) (oaddr s)).
Proof.
  intros I0 S0 L Hs. destruct c as [a n seed dim|mo f n|f]; cbn [leaves] in L.
  - destruct (new_generator n seed dim) as [g| | |] eqn:E.
    + split; [apply (step_make w a n seed dim g I0 S0 E); right; split; [exact Hs|]; intros Q; apply L; now apply same_sym|]. intros _.
      cbn [RsgModel.step]. rewrite E. destruct (load uniq (repo w) _) as [m t]. cbn [fst heap]. apply at_other. intros Ea. cbn [sensible] in S0. apply (S0 s); [|now symmetry]. apply (has_holds uniq _ _ (proj1 (proj1 I0))). exact Hs.
    + cbn [RsgModel.step]. rewrite E. auto.
    + cbn [RsgModel.step]. rewrite E. auto.
    + cbn [RsgModel.step]. rewrite E. auto.
  - split; [rewrite draw_repo; exact Hs|]. intros N. apply (step_draw_other w mo f n s I0 Hs (N mo f n eq_refl)).
  - rewrite <- tag_is_text in L. destruct (step_drop w f I0) as [D1 D2]. cbn [RsgModel.step] in *. destruct (fetch (repo w) f false) as [[x|]| | |] eqn:E; auto. destruct (fetch_inv uniq (repo w) f _ (proj1 I0) E) as (y & Ey & Hy & Et).
    assert (x = y) by congruence. subst y. destruct (D1 x Hy (same_sym _ _ Et)) as (_ & Hh & Hr). split; [|intros _; now rewrite Hh]. apply Hr. split; [exact Hs|]. intros ->. apply L. now apply same_sym.
Qed.
Lemma run_cons w c l : run w (c :: l) = (fst (run (fst (step w c)) l), snd (step w c) :: snd (run (fst (step w c)) l)).
Proof. cbn [RsgModel.run]. destruct (step w c) as [w1 v]. cbn [fst snd]. destruct (run w1 l) as [w2 vs]. reflexivity. Qed.
Lemma story l : forall w s g, winv w -> sensible_run icdf uniq w l -> Forall (leaves uniq s) l -> holds (repo w) s -> at_address (heap w) (oaddr s) = Some g ->
  answers (tag uniq s) l (snd (run w l)) = alone icdf g (asked (tag uniq s) l) /\ holds (repo (fst (run w l))) s.
Proof.
  induction l as [|c l IH]; intros w s g I0 Sr F Hs Eg; [split; [reflexivity|exact Hs]|]. destruct Sr as [S0 Sr]. inversion F as [|? ? L F']; subst.
  rewrite run_cons. cbn [fst snd]. pose proof (step_winv w c I0 S0) as I1. destruct (step_keeps w c s I0 S0 L Hs) as [Hs1 Ho].
  unfold answers. cbn [combine filter fst]. destruct (on_handle (tag uniq s) c) eqn:O.
  - destruct c as [|mo f n|]; cbn [on_handle] in O; try discriminate. apply ci_eqb_iff in O. cbn [asked flat_map]. rewrite (proj2 (ci_eqb_iff f (tag uniq s)) O). cbn [app].
    pose proof (step_draw w mo f n s g I0 Hs O Eg) as E. cbn [alone]. destruct (get icdf mo n g) as [[rs g']| | |] eqn:Eget.
    + rewrite E in *. cbn [fst snd map] in *. destruct (IH _ s g' I1 Sr F' Hs1) as [A B]; [cbn [heap]; apply at_new|]. split; [|exact B]. f_equal. exact A.
    + rewrite E in *. cbn [fst snd map] in *. destruct (IH _ s g I1 Sr F' Hs1 Eg) as [A B]. split; [|exact B]. f_equal. exact A.
    + rewrite E in *. cbn [fst snd map] in *. destruct (IH _ s g I1 Sr F' Hs1 Eg) as [A B]. split; [|exact B]. f_equal. exact A.
    + rewrite E in *. cbn [fst snd map] in *. destruct (IH _ s g I1 Sr F' Hs1 Eg) as [A B]. split; [|exact B]. f_equal. exact A.
  - assert (Ea : asked (tag uniq s) (c :: l) = asked (tag uniq s) l). { cbn [asked flat_map]. destruct c as [|mo f n|]; try reflexivity. cbn [on_handle] in O. rewrite O. reflexivity. }
    rewrite Ea. apply (IH _ s g I1 Sr F' Hs1). rewrite Ho; [exact Eg|]. intros mo f n -> Q. cbn [on_handle] in O. apply ci_eqb_iff in Q. congruence.
Qed.
Lemma run_app w l1 l2 : run w (l1 ++ l2) = (fst (run (fst (run w l1)) l2), snd (run w l1) ++ snd (run (fst (run w l1)) l2)).
Proof. revert w. induction l1 as [|c l1 IH]; intros w; [cbn; destruct (run w l2); reflexivity|]. cbn [app]. rewrite !run_cons, IH. reflexivity. Qed.
Lemma run_winv l : forall w, winv w -> sensible_run icdf uniq w l -> winv (fst (run w l)).
Proof. induction l as [|c l IH]; intros w I0 Sr; [exact I0|]. destruct Sr as [S0 Sr]. rewrite run_cons. apply IH; [now apply step_winv|exact Sr]. Qed.
End Session.

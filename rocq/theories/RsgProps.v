(** C79: random sequence generators kept in the repository. *)
From Coq Require Import String Ascii ZArith List Bool Lia Arith.
From Coq Require Import Floats.SpecFloat.
From Verif Require Import Base StringModel StringSpec StringProofs OMap DateModel RandomModel RandomSpec RandomProofs RandomProps RepoModel RepoSpec RepoProofs RepoProps SheetModel SheetSpec SheetProofs RsgModel RsgSpec RsgProofs.
Import ListNotations.
Open Scope Z_scope.

Lemma get_rows icdf w n g l g' : 0 <= n -> get icdf w n g = Ok (l, g') -> rows icdf w (Z.to_nat n) (g_machine g) = Ok (l, g_machine g') /\ g_name g' = g_name g /\ g_seed g' = g_seed g /\ g_dim g' = g_dim g.
Proof.
  intros Hn E. unfold get in E. destruct (Z.ltb_spec n 0) as [|_]; [lia|]. destruct (rows icdf w (Z.to_nat n) (g_machine g)) as [[l0 m0]| | |]; cbn [obind fst snd] in E; try discriminate.
  assert (l = l0) by congruence. assert (g' = Gen (g_name g) (g_seed g) (g_dim g) m0) by congruence. subst. auto.
Qed.
Lemma new_good name seed dim g : new_generator name seed dim = Ok g -> 0 <= dim /\ good_machine (Z.to_nat dim) (g_machine g) /\ rested (g_machine g) /\ g_dim g = dim /\ exists k, parse_kind name = Ok k /\ new_machine k seed dim = Ok (g_machine g).
Proof.
  unfold new_generator. destruct (parse_kind name) as [k| | |]; cbn [obind]; try discriminate. destruct (new_machine k seed dim) as [m| | |] eqn:E; cbn [obind]; try discriminate. intros Q. assert (g = Gen name seed dim m) by congruence. subst g. cbn [g_machine g_dim].
  destruct (new_machine_good k seed dim m E). split; [assumption|]. split; [assumption|]. split; [eapply new_rested; eauto|]. eauto.
Qed.
Lemma after_good icdf d l : forall g g', after_draws icdf g l g' -> good_machine d (g_machine g) -> good_machine d (g_machine g') /\ g_dim g' = g_dim g /\ stored g' = stored g.
Proof.
  induction l as [|[w n] l IH]; intros g g' H G; [cbn in H; subst; auto|]. destruct H as (rs & g1 & E & H). unfold get in E. destruct (n <? 0); [discriminate|].
  destruct (rows_ok icdf w d (Z.to_nat n) (g_machine g) G) as (l0 & m0 & Er & G0 & _). rewrite Er in E. cbn [obind fst snd] in E. assert (g1 = Gen (g_name g) (g_seed g) (g_dim g) m0) by congruence. subst g1.
  destruct (IH _ _ H G0) as (A & B & C). auto.
Qed.

(** In any session, the answers to what is asked of a generator's handle are those of that generator alone, whatever is done with other
    generators in between. *)
Theorem C79_alone : forall icdf uniq before a name seed dim g later, address_text uniq ->
  let w := fst (run icdf uniq start before) in let s := Obj (lit "PseudoRSG"%string) name a Other in let made := fst (step icdf uniq w (Make a name seed dim)) in
  sensible_run icdf uniq start (before ++ Make a name seed dim :: later) -> new_generator name seed dim = Ok g -> Forall (leaves uniq s) later ->
  snd (step icdf uniq w (Make a name seed dim)) = Ok (AHandle (tag_text uniq s)) /\
  answers (tag_text uniq s) later (snd (run icdf uniq made later)) = alone icdf g (asked (tag_text uniq s) later).
Proof.
  intros icdf uniq before a name seed dim g later Hu w s made Sr E F.
  assert (Q : forall l w0, winv uniq w0 -> sensible_run icdf uniq w0 (l ++ Make a name seed dim :: later) -> winv uniq (fst (run icdf uniq w0 l)) /\ sensible_run icdf uniq (fst (run icdf uniq w0 l)) (Make a name seed dim :: later)).
  { induction l as [|c l IH]; intros w0 I0 S0; [auto|]. destruct S0 as [S0 S1]. rewrite run_cons. cbn [fst]. apply IH; [now apply step_winv|exact S1]. }
  destruct (Q before start (winv_start uniq) Sr) as [I0 [S0 S1]]. fold w in I0, S0, S1. destruct (step_make icdf uniq Hu w a name seed dim g I0 S0 E) as (I1 & Et & Eg & H). fold s in Et, H. fold made in I1, Eg, H.
  rewrite <- tag_is_text. split; [exact Et|]. apply (story icdf uniq Hu later made s g I1 S1 F); [apply H; now left|exact Eg].
Qed.
Print Assumptions C79_alone.

(** A generator that has been made never fails: each draw gives the rows asked for, of the dimension of the generator, uniforms strictly
    between 0 and 1, normals the inverses of such uniforms; and it can be drawn from again. *)
Theorem C79_never_fails : forall icdf name seed dim g0 draws0 g w n, new_generator name seed dim = Ok g0 -> after_draws icdf g0 draws0 g -> 0 <= n ->
  exists l g', get icdf w n g = Ok (l, g') /\ length l = Z.to_nat n /\
    Forall (fun row => exists us, length us = Z.to_nat dim /\ Forall open01 us /\ row = match w with Uniforms => us | Normals => map icdf us end) l.
Proof.
  intros icdf name seed dim g0 ds g w n E H Hn. destruct (new_good name seed dim g0 E) as (_ & G0 & _). destruct (after_good icdf _ ds g0 g H G0) as (G & _).
  destruct (rows_ok icdf w _ (Z.to_nat n) (g_machine g) G) as (l & m & Er & _ & L & F). unfold get. destruct (Z.ltb_spec n 0); [lia|]. rewrite Er. cbn [obind fst snd]. eexists _, _. split; [reflexivity|]. split; [exact L|].
  eapply Forall_impl; [|exact F]. intros row R. destruct w; cbn [row_ok] in R; [exists row; intuition|]. destruct R as (us & L1 & -> & F1). exists us. auto.
Qed.
Print Assumptions C79_never_fails.

(** Asking for n rows and then k rows gives the n + k rows. *)
Theorem C79_split : forall icdf w n k g, 0 <= n -> 0 <= k ->
  get icdf w (n + k) g = (do p <- get icdf w n g; do q <- get icdf w k (snd p); Ok (fst p ++ fst q, snd q))%list.
Proof.
  intros icdf w n k g Hn Hk. unfold get. destruct (Z.ltb_spec (n + k) 0); [lia|]. destruct (Z.ltb_spec n 0); [lia|]. destruct (Z.ltb_spec k 0); [lia|]. rewrite Z2Nat.inj_add, rows_app by lia.
  destruct (rows icdf w (Z.to_nat n) (g_machine g)) as [[l m]| | |]; cbn [obind fst snd g_machine]; try reflexivity. destruct (rows icdf w (Z.to_nat k) m) as [[l2 m2]| | |]; reflexivity.
Qed.
Print Assumptions C79_split.

(** In the uniforms of a new generator, every second row is the mirror image of the row before. *)
Theorem C79_pairs : forall icdf name seed dim g n l g' k, new_generator name seed dim = Ok g -> 0 <= n -> get icdf Uniforms n g = Ok (l, g') -> (S (2 * k) < Z.to_nat n)%nat ->
  nth (S (2 * k)) l [] = mirror (nth (2 * k) l []).
Proof.
  intros icdf name seed dim g n l g' k E Hn Eg Hk. destruct (new_good name seed dim g E) as (_ & G0 & R0 & _). destruct (get_rows icdf Uniforms n g l g' Hn Eg) as [Er _]. exact (pair_rows icdf _ _ _ G0 R0 k l _ Er Hk).
Qed.
Print Assumptions C79_pairs.

(** The uniforms of a new MRG32 generator are those of the recurrence with the seeds [seed] and [seed + 1]. *)
Theorem C79_numbers : forall icdf name seed dim g n, new_generator name seed dim = Ok g -> parse_kind name = Ok MRG32 -> 0 <= n ->
  exists g', get icdf Uniforms n g = Ok (map (uniform_row (w32 seed) (w32 (seed + 1)) (Z.to_nat dim)) (seq 0 (Z.to_nat n)), g').
Proof.
  intros icdf name seed dim g n E Ek Hn. destruct (new_good name seed dim g E) as (Hd & G0 & _ & _ & k & Ek' & Em). assert (k = MRG32) by congruence. subst k.
  destruct (rows_ok icdf Uniforms _ (Z.to_nat n) (g_machine g) G0) as (l & m & Er & _). unfold get. destruct (Z.ltb_spec n 0); [lia|]. rewrite Er. cbn [obind fst snd]. eexists. f_equal. f_equal.
  unfold new_machine in Em. destruct (Z.ltb_spec dim 0); [discriminate|]. destruct (seed =? 2 ^ 31 - 1); [discriminate|]. assert (Em' : g_machine g = inr (rng_new (mrg_of_seed seed) (Z.to_nat dim))) by congruence. rewrite Em' in Er. apply rows_uniforms in Er.
  pose proof (RsgProofs.w32_word seed) as Wa. pose proof (RsgProofs.w32_word (seed + 1)) as Wb. unfold mrg_of_seed in Er.
  rewrite (uniforms_ok _ _ Wa Wb (Z.to_nat dim) (Z.to_nat n) _ 0%nat) in Er; [|apply repeat_length|cbn [gen rng_new]; rewrite after_0; change (Nat.div2 1 * Z.to_nat dim)%nat with 0%nat; now apply after_same|reflexivity|discriminate].
  assert (l = map (uniform_path (w32 seed) (w32 (seed + 1)) (Z.to_nat dim)) (seq 0 (Z.to_nat n))) by congruence. subst l. reflexivity.
Qed.
Print Assumptions C79_numbers.
(** and those of a new IRN generator are those of the shuffled generator (C23) with the seed given *)
Theorem C79_irn_numbers : forall icdf name seed dim g n, new_generator name seed dim = Ok g -> parse_kind name = Ok IRN -> 0 <= n ->
  exists s l g', irn_of_seed seed = Ok s /\ uniforms irn_next (Z.to_nat n) (rng_new s (Z.to_nat dim)) = Ok l /\ get icdf Uniforms n g = Ok (l, g').
Proof.
  intros icdf name seed dim g n E Ek Hn. destruct (new_good name seed dim g E) as (Hd & G0 & _ & _ & k & Ek' & Em). assert (k = IRN) by congruence. subst k.
  destruct (rows_ok icdf Uniforms _ (Z.to_nat n) (g_machine g) G0) as (l & m & Er & _). unfold get. destruct (Z.ltb_spec n 0); [lia|]. rewrite Er. cbn [obind fst snd].
  unfold new_machine in Em. destruct (Z.ltb_spec dim 0); [discriminate|]. destruct (irn_of_seed seed) as [s| | |]; cbn [obind] in Em; try discriminate.
  assert (Em' : g_machine g = inl (rng_new s (Z.to_nat dim))) by congruence. rewrite Em' in Er. apply rows_uniforms_irn in Er. eauto 6.
Qed.
Print Assumptions C79_irn_numbers.

(** A generator can be made exactly when its name is one of the kinds (up to case, blanks and underscores), its dimension is not negative
    and, for MRG32, the seed is not the last int. *)
Theorem C79_made : forall name seed dim, (exists g, new_generator name seed dim = Ok g) <-> exists k, parse_kind name = Ok k /\ 0 <= dim /\ (k = MRG32 -> seed <> 2 ^ 31 - 1).
Proof.
  intros name seed dim. unfold new_generator. split.
  - intros [g E]. destruct (parse_kind name) as [k| | |]; cbn [obind] in E; try discriminate. exists k. split; [reflexivity|]. unfold new_machine in E. destruct (Z.ltb_spec dim 0); [discriminate|]. split; [assumption|].
    intros ->. destruct (Z.eqb_spec seed (2 ^ 31 - 1)); [discriminate|assumption].
  - intros (k & -> & Hd & Hs). cbn [obind]. unfold new_machine. destruct (Z.ltb_spec dim 0); [lia|]. destruct k.
    + destruct (irn_new_ok seed) as (g & -> & _). cbn [obind]. eauto.
    + destruct (Z.eqb_spec seed (2 ^ 31 - 1)) as [->|]; [exfalso; now apply Hs|]. cbn [obind]. eauto.
Qed.
Print Assumptions C79_made.
Theorem C79_names : forall name k, parse_kind name = Ok k -> exists n, In n known_names /\ equivalent name n = Ok true.
Proof. exact parse_known. Qed.
Print Assumptions C79_names.
(** Each name means one kind, written in any case and with blanks and underscores. *)
Theorem C79_kinds : forall name n k, ascii_only name -> name <> [] -> equivalent name n = Ok true ->
  In (n, k) [(lit "IRN"%string, IRN); (lit "SHUFFLEDIRN"%string, IRN); (lit "MRG32"%string, MRG32); (lit "MRG32K32A"%string, MRG32)] -> parse_kind name = Ok k.
Proof.
  intros name n k Ha Hn E I0.
  assert (D : forall m, (ci_eqb n m = true -> equivalent name m = Ok true) /\ (ci_eqb n m = false -> equivalent name m = Ok false)).
  { intros m. destruct (equivalent_spec name n Ha) as (b & t & E1 & S1 & Hb). rewrite E in E1. injection E1 as <-. pose proof (proj1 Hb eq_refl) as Ht. clear Hb.
    destruct (equivalent_spec name m Ha) as (b & t' & E2 & S2 & Hb). rewrite (strip_fun _ _ _ S2 S1) in Hb. rewrite E2. apply ci_eqb_iff in Ht. rewrite <- ci_eqb_iff in Hb. split; intros Hm.
    - f_equal. apply Hb. exact (ci_eqb_trans _ _ _ Ht Hm).
    - destruct b; [|reflexivity]. exfalso. rewrite ci_eq_sym in Ht. rewrite (ci_eqb_trans _ _ _ Ht (proj1 Hb eq_refl)) in Hm. discriminate. }
  unfold parse_kind. destruct name as [|c r]; [congruence|]. cbn [In] in I0.
  destruct I0 as [I0|[I0|[I0|[I0|[]]]]]; assert (Hk := f_equal snd I0); apply (f_equal fst) in I0; cbn [fst snd] in I0, Hk; subst n k.
  - now rewrite (proj1 (D _)) by reflexivity.
  - rewrite (proj2 (D _)) by reflexivity. cbn [obind]. now rewrite (proj1 (D _)) by reflexivity.
  - do 2 (rewrite (proj2 (D _)) by reflexivity; cbn [obind]). now rewrite (proj1 (D _)) by reflexivity.
  - do 3 (rewrite (proj2 (D _)) by reflexivity; cbn [obind]). now rewrite (proj1 (D _)) by reflexivity.
Qed.
Print Assumptions C79_kinds.

(** What is stored of a new generator makes the same generator. *)
Theorem C79_stored : forall name seed dim g, new_generator name seed dim = Ok g -> restored (stored g) = Ok g.
Proof.
  intros name seed dim g E. unfold stored, restored. assert (Q := E). unfold new_generator in Q. destruct (parse_kind name); cbn [obind] in Q; try discriminate. destruct (new_machine _ seed dim) as [m| | |]; cbn [obind] in Q; try discriminate.
  assert (g = Gen name seed dim m) by congruence. subst g. exact E.
Qed.
Print Assumptions C79_stored.

(** Finding: what has been drawn is not stored: the generator starts again from its first numbers. *)
Theorem C79_restart_refuted : forall icdf name seed dim g0 draws0 g, new_generator name seed dim = Ok g0 -> after_draws icdf g0 draws0 g -> restored (stored g) = Ok g0.
Proof.
  intros icdf name seed dim g0 ds g E H. destruct (new_good name seed dim g0 E) as (_ & G0 & _). destruct (after_good icdf _ ds g0 g H G0) as (_ & _ & ->). now apply (C79_stored name seed dim).
Qed.
Print Assumptions C79_restart_refuted.
(** Finding: the name is the kind, so a generator cannot be given a name of its own. *)
Theorem C79_name_refuted : forall seed dim, new_generator (lit "my generator"%string) seed dim = Throw.
Proof. reflexivity. Qed.
Print Assumptions C79_name_refuted.
(** Finding: hence a second generator of a kind, with whatever seed, takes the place of the first, whose handle fails from then on. *)
Theorem C79_second_seed_refuted : forall icdf uniq name a b seed1 seed2 dim1 dim2 g1 g2 w n, address_text uniq -> a <> b ->
  new_generator name seed1 dim1 = Ok g1 -> new_generator name seed2 dim2 = Ok g2 ->
  snd (run icdf uniq start [Make a name seed1 dim1; Make b name seed2 dim2; Draw w (tag_text uniq (Obj (lit "PseudoRSG"%string) name a Other)) n]) =
  [Ok (AHandle (tag_text uniq (Obj (lit "PseudoRSG"%string) name a Other))); Ok (AHandle (tag_text uniq (Obj (lit "PseudoRSG"%string) name b Other))); Throw].
Proof.
  intros icdf uniq name a b seed1 seed2 dim1 dim2 g1 g2 w n Hu N E1 E2. rewrite !run_cons. cbn [snd].
  destruct (step_make icdf uniq Hu start a name seed1 dim1 g1 (winv_start uniq)) as (I1 & T1 & _ & H1); [intros x []|exact E1|]. set (w1 := fst (step icdf uniq start (Make a name seed1 dim1))) in *.
  destruct (step_make icdf uniq Hu w1 b name seed2 dim2 g2 I1) as (I2 & T2 & _ & H2); [|exact E2|].
  { intros x Hx. apply (has_holds uniq _ _ (proj1 (proj1 I1))) in Hx. apply H1 in Hx as [->|[[] _]]. exact N. }
  set (w2 := fst (step icdf uniq w1 (Make b name seed2 dim2))) in *. rewrite T1, T2, !tag_is_text. do 2 f_equal.
  match goal with |- ?v :: _ = _ => enough (v = Throw) as -> by reflexivity end.
  cbn [RsgModel.step]. unfold the_generator. destruct (fetch (repo w2) _ false) as [o| | |] eqn:E; cbn [obind]; try reflexivity.
  - exfalso. destruct (fetch_inv uniq (repo w2) _ o (proj1 I2) E) as (x & -> & Hx & Et). assert (x = Obj (lit "PseudoRSG"%string) name b Other) as ->.
    { apply H2 in Hx as [->|[Hx Q]]; [reflexivity|]. apply H1 in Hx as [->|[[] _]]. exfalso. apply Q. apply same_refl. }
    rewrite <- tag_is_text in Et. assert (Wf : forall c, wf (Obj (lit "PseudoRSG"%string) name c Other)). { intros c. split; [cbn; intuition discriminate|]. unfold new_generator in E1. destruct (parse_kind name) as [k| | |] eqn:Ek; try discriminate. apply (parse_name name k Ek). }
    apply (proj1 (tag_same uniq Hu _ _ (Wf b) (Wf a))) in Et. cbn [oaddr] in Et. intuition congruence.
  - unfold fetch in E. destruct (mfind ci_compare (repo w2) _); discriminate.
  - unfold fetch in E. destruct (mfind ci_compare (repo w2) _); discriminate.
Qed.
Print Assumptions C79_second_seed_refuted.
(** Finding: the second seed of MRG32 is seed + 1, computed in an int, which overflows for the last int. *)
Theorem C79_last_seed_refuted : forall name dim, parse_kind name = Ok MRG32 -> new_generator name (2 ^ 31 - 1) dim = UB.
Proof. intros name dim E. unfold new_generator. rewrite E. cbn [obind]. unfold new_machine. destruct (dim <? 0); reflexivity. Qed.
Print Assumptions C79_last_seed_refuted.

(** A session with two generators drawn from in turn, one dropped and the other drawn from again: the hypotheses are met. *)
Definition irn_s : object shape := Obj (lit "PseudoRSG"%string) (lit "irn"%string) 16 Other.
Definition mrg_s : object shape := Obj (lit "PseudoRSG"%string) (lit "MRG_32"%string) 32 Other.
Definition later : list call :=
  [Draw Uniforms (tag_text address irn_s) 2; Make 32 (lit "MRG_32"%string) 7 2; Draw Uniforms (tag_text address mrg_s) 1; Draw Normals (tag_text address irn_s) 1; Drop (tag_text address mrg_s);
   Draw Uniforms (tag_text address mrg_s) 1; Draw Uniforms (tag_text address irn_s) (-1); Draw Uniforms (tag_text address irn_s) 1].
Example C79_case : sensible_run (fun u => u) address start ([] ++ Make 16 (lit "irn"%string) 5 2 :: later) /\ Forall (leaves address irn_s) later /\
  asked (tag_text address irn_s) later = [(Uniforms, 2); (Normals, 1); (Uniforms, -1); (Uniforms, 1)] /\ (exists g, new_generator (lit "irn"%string) 5 2 = Ok g) /\ (exists g, new_generator (lit "MRG_32"%string) 7 2 = Ok g).
Proof.
  split; [|split; [|split; [vm_compute; reflexivity|split; apply C79_made]]].
  - unfold later. cbn [app sensible_run sensible]. split; [intros x []|]. split; [exact Logic.I|]. split; [|repeat (split; [exact Logic.I|]); exact Logic.I].
    intros x Hx. unfold has in Hx. vm_compute in Hx. destruct Hx as [<-|[]]. discriminate.
  - unfold later. assert (D : forall p q, ci_eqb p q = false -> ~ same_up_to_case p q) by (intros p q E Q; apply ci_eqb_iff in Q; congruence).
    repeat (constructor; [cbn [leaves]; try exact Logic.I; apply D; vm_compute; reflexivity|]). constructor.
  - exists IRN. split; [reflexivity|]. split; [lia|discriminate].
  - exists MRG32. split; [reflexivity|]. split; [lia|intros _; lia].
Qed.

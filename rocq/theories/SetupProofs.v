(** Proofs about the start-up and the market conventions. *)
From Coq Require Import String Ascii ZArith List Bool Lia Sorted.
From Verif Require Import Base StringModel StringSpec StringProofs DateModel HolidayModel HolidaySpec HolidayProofs HolidayRegistry IndexModel SetupModel SetupSpec SetupData.
Import ListNotations.
Local Open Scope Z_scope.
#[global] Opaque sse_holidays ib_holidays ib_weekends.

(** * Facts *)
Section Facts.
  Context {T : Type}.
  Implicit Types (f : fact T) (ws : list (write T)).
  Lemma find_release a b (l : list (Z * T)) : a <> b -> find (fun p => fst p =? a) (filter (fun p => negb (fst p =? b)) l) = find (fun p => fst p =? a) l.
  Proof.
    intros N. induction l as [|[k v] r IH]; [reflexivity|]. cbn. destruct (k =? b) eqn:E; cbn.
    - apply Z.eqb_eq in E. subst k. destruct (b =? a) eqn:E2; [apply Z.eqb_eq in E2; congruence|exact IH].
    - destruct (k =? a); [reflexivity|exact IH].
  Qed.
  Lemma find_released b (l : list (Z * T)) : find (fun p => fst p =? b) (filter (fun p => negb (fst p =? b)) l) = None.
  Proof.
    induction l as [|[k v] r IH]; [reflexivity|]. cbn. destruct (k =? b) eqn:E; cbn; [exact IH|]. now rewrite E.
  Qed.
  Definition target f (w : write T) : option Z := match w with ByDefault _ => background f | For c _ => slot c (specific f) end.
  Lemma use_put f w a : a < next f -> target f w <> Some a -> use (put_fact f w) a = use f a.
  Proof.
    intros Ha Ht. unfold use. destruct w as [v|c v]; cbn [put_fact live target] in *; cbn [find fst];
    (replace (next f =? a) with false by lia);
    match goal with |- context[release ?x _] => destruct x as [b|] end; cbn [release]; try reflexivity; (rewrite find_release; [reflexivity|congruence]).
  Qed.
  Lemma use_replaced f w a : a < next f -> target f w = Some a -> use (put_fact f w) a = UB.
  Proof.
    intros Ha Ht. unfold use. destruct w as [v|c v]; cbn [put_fact live target] in *; cbn [find fst];
    (replace (next f =? a) with false by lia); rewrite Ht; cbn [release]; now rewrite find_released.
  Qed.
  Lemma use_new f w v : (w = ByDefault v \/ exists c, w = For c v) -> use (put_fact f w) (next f) = Ok v.
  Proof. intros [-> | (c & ->)]; unfold use; cbn [put_fact live find fst]; rewrite Z.eqb_refl; reflexivity. Qed.
  (** Addresses are below [next]; the slots share none. *)
  Definition finv f : Prop :=
    (forall c a, slot c (specific f) = Some a -> a < next f) /\ (forall a, background f = Some a -> a < next f) /\
    (forall c c' a, slot c (specific f) = Some a -> slot c' (specific f) = Some a -> c = c') /\
    (forall c a, slot c (specific f) = Some a -> background f <> Some a) /\
    (forall a v, In (a, v) (live f) -> a < next f).
  Lemma finv_empty : finv (@fact_empty T).
  Proof. repeat split; cbn; try discriminate. intros _ _ []. Qed.
  Lemma finv_put f w : finv f -> finv (put_fact f w).
  Proof.
    intros (A & B & C & D & E).
    assert (R : forall b a v, In (a, v) (release b (live f)) -> a < next f).
    { intros [b|] a v; cbn [release]; [|apply E]. rewrite filter_In. intros [H _]. exact (E a v H). }
    destruct w as [v|c v]; cbn [put_fact]; unfold finv; cbn [next live background specific].
    - split; [intros c a H; specialize (A c a H); lia|]. split; [intros a H; assert (a = next f) by congruence; lia|].
      split; [exact C|]. split; [intros c a H H'; specialize (A c a H); assert (a = next f) by congruence; lia|].
      intros a u [H|H]; [assert (a = next f) by congruence; lia|]. specialize (R _ _ _ H). lia.
    - split. { intros c' a. cbn [slot]. destruct (ccy_eq_dec c c'); intros H; [assert (a = next f) by congruence; lia|]. specialize (A c' a H). lia. }
      split. { intros a H. specialize (B a H). lia. }
      split. { intros c1 c2 a. cbn [slot]. destruct (ccy_eq_dec c c1), (ccy_eq_dec c c2); intros H1 H2; try congruence.
               - specialize (A c2 a H2). assert (a = next f) by congruence. lia.
               - specialize (A c1 a H1). assert (a = next f) by congruence. lia.
               - exact (C c1 c2 a H1 H2). }
      split. { intros c' a. cbn [slot]. destruct (ccy_eq_dec c c'); intros H H'; [specialize (B a H'); assert (a = next f) by congruence; lia|]. exact (D c' a H H'). }
      intros a u [H|H]; [assert (a = next f) by congruence; lia|]. specialize (R _ _ _ H). lia.
  Qed.
  Lemma written_snoc ws w : written (ws ++ [w]) = put_fact (written ws) w.
  Proof. unfold written. now rewrite fold_left_app. Qed.
  Lemma last_for_snoc c ws (w : write T) : last_for c (ws ++ [w]) = match w with For c' v => if ccy_eq_dec c' c then Some v else last_for c ws | ByDefault _ => last_for c ws end.
  Proof.
    induction ws as [|x r IH]; cbn.
    - destruct w as [v|c' v]; [reflexivity|]. now destruct (ccy_eq_dec c' c).
    - rewrite IH. destruct w as [v|c' v]; [reflexivity|]. destruct (ccy_eq_dec c' c); [reflexivity|]. reflexivity.
  Qed.
  Lemma last_default_snoc ws (w : write T) : last_default (ws ++ [w]) = match w with ByDefault v => Some v | For _ _ => last_default ws end.
  Proof.
    induction ws as [|x r IH]; cbn.
    - now destruct w.
    - rewrite IH. now destruct w.
  Qed.
  Definition holds f ws : Prop :=
    (forall c, match last_for c ws with Some v => exists a, slot c (specific f) = Some a /\ use f a = Ok v | None => slot c (specific f) = None end) /\
    match last_default ws with Some v => exists a, background f = Some a /\ use f a = Ok v | None => background f = None end.
  Lemma written_ok ws : finv (written ws) /\ holds (written ws) ws.
  Proof.
    induction ws as [|w ws IH] using rev_ind.
    - split; [exact finv_empty|]. split; [intros c; reflexivity|reflexivity].
    - rewrite written_snoc. set (f := written ws) in *. clearbody f. destruct IH as [I [H1 H2]]. split; [now apply finv_put|].
      destruct I as (A & B & C & D & _). split.
      + intros c. rewrite last_for_snoc. specialize (H1 c). destruct w as [v|c' v].
        * cbn [put_fact specific]. destruct (last_for c ws) as [u|]; [|exact H1]. destruct H1 as (a & Hs & Hu). exists a. split; [exact Hs|].
          change (use (put_fact f (ByDefault v)) a = Ok u). rewrite use_put; [exact Hu|exact (A c a Hs)|]. cbn [target]. exact (D c a Hs).
        * cbn [put_fact specific slot]. destruct (ccy_eq_dec c' c) as [->|N].
          -- exists (next f). split; [reflexivity|]. apply (use_new f (For c v) v). right. now exists c.
          -- destruct (last_for c ws) as [u|]; [|exact H1]. destruct H1 as (a & Hs & Hu). exists a. split; [exact Hs|].
             change (use (put_fact f (For c' v)) a = Ok u). rewrite use_put; [exact Hu|exact (A c a Hs)|]. cbn [target].
             intros H. exact (N (C c' c a H Hs)).
      + rewrite last_default_snoc. destruct w as [v|c' v].
        * exists (next f). split; [reflexivity|]. apply (use_new f (ByDefault v) v). now left.
        * cbn [put_fact background]. destruct (last_default ws) as [u|]; [|exact H2]. destruct H2 as (a & Hb & Hu). exists a. split; [exact Hb|].
          change (use (put_fact f (For c' v)) a = Ok u). rewrite use_put; [exact Hu|exact (B a Hb)|]. cbn [target]. intros H. exact (D c' a H Hb).
  Qed.
  Lemma fact_meaning ws c : fact_of (written ws) c = meaning ws c.
  Proof.
    destruct (written_ok ws) as [_ [H1 H2]]. specialize (H1 c). unfold fact_of, meaning, refer.
    destruct (last_for c ws) as [v|].
    - destruct H1 as (a & -> & Hu). exact Hu.
    - rewrite H1. destruct (last_default ws) as [v|]; [destruct H2 as (a & -> & Hu); exact Hu|]. now rewrite H2.
  Qed.
  (** References. *)
  Lemma gone_stays f w a : a < next f -> use f a = UB -> use (put_fact f w) a = UB /\ a < next (put_fact f w).
  Proof.
    intros Ha Hu. split; [|destruct w; cbn; lia].
    destruct (target f w) as [b|] eqn:E.
    - destruct (Z.eq_dec b a) as [->|N]; [now apply use_replaced|]. rewrite use_put; [exact Hu|exact Ha|congruence].
    - rewrite use_put; [exact Hu|exact Ha|congruence].
  Qed.
  Lemma gone_forever f more a : a < next f -> use f a = UB -> use (fold_left put_fact more f) a = UB.
  Proof.
    revert f. induction more as [|w r IH]; intros f Ha Hu; [exact Hu|]. cbn [fold_left].
    destruct (gone_stays f w a Ha Hu) as [Hu' Ha']. now apply IH.
  Qed.
  Definition supplies f (own : bool) c a : Prop := if own then slot c (specific f) = Some a else slot c (specific f) = None /\ background f = Some a.
  Definition still f (own : bool) c a : Prop := if own then slot c (specific f) = Some a else background f = Some a.
  Definition hits (own : bool) c (w : write T) : Prop := match w with For c' _ => c' = c /\ own = true | ByDefault _ => own = false end.
  Lemma still_put f own c a w : finv f -> still f own c a -> ~ hits own c w -> still (put_fact f w) own c a /\ use (put_fact f w) a = use f a.
  Proof.
    intros (A & B & C & D & _) Hs N. split.
    - destruct w as [v|c' v], own; cbn in *; try exact Hs.
      + now contradiction N.
      + destruct (ccy_eq_dec c' c) as [->|]; [contradiction N; now split|exact Hs].
    - apply use_put.
      + destruct own; [exact (A c a Hs)|exact (B a Hs)].
      + destruct w as [v|c' v], own; cbn in *.
        * exact (D c a Hs).
        * now contradiction N.
        * intros H. apply N. split; [exact (C c' c a H Hs)|reflexivity].
        * intros H. exact (D c' a H Hs).
  Qed.
  Lemma finv_run f more : finv f -> finv (fold_left put_fact more f).
  Proof. revert f. induction more as [|w r IH]; intros f I; [exact I|]. apply IH, finv_put, I. Qed.
  Lemma still_run more : forall f own c a, finv f -> still f own c a -> (forall w, In w more -> ~ hits own c w) ->
    still (fold_left put_fact more f) own c a /\ use (fold_left put_fact more f) a = use f a.
  Proof.
    induction more as [|w r IH]; intros f own c a I Hs N; [now split|]. cbn [fold_left].
    destruct (still_put f own c a w I Hs (N w (or_introl eq_refl))) as [S' U].
    destruct (IH (put_fact f w) own c a (finv_put f w I) S' (fun x Hx => N x (or_intror Hx))) as [S2 U2]. split; [exact S2|]. now rewrite U2.
  Qed.
  Lemma refer_still ws c a : refer (written ws) c = Ok a ->
    exists own, still (written ws) own c a /\ (forall w, hits own c w <-> replaces ws c w).
  Proof.
    destruct (written_ok ws) as [_ [H1 _]]. specialize (H1 c). unfold refer. intros H.
    destruct (last_for c ws) as [v|] eqn:E.
    - destruct H1 as (b & Hs & _). rewrite Hs in H. exists true. split; [cbn; congruence|].
      intros [u|c' u]; cbn; rewrite E; split; try discriminate; intros [P _]; (split; [exact P|congruence]).
    - rewrite H1 in H. exists false. split; [cbn; destruct (background (written ws)); [congruence|discriminate]|].
      intros [u|c' u]; cbn; rewrite E; split; try reflexivity; intros [_ P]; congruence.
  Qed.
  Lemma reference_lives ws more c a : refer (written ws) c = Ok a -> (forall w, In w more -> ~ replaces ws c w) ->
    use (written (ws ++ more)) a = meaning ws c.
  Proof.
    intros H N. destruct (refer_still ws c a H) as (own & Hs & Hr).
    unfold written. rewrite fold_left_app. change (fold_left put_fact ws fact_empty) with (written ws).
    destruct (still_run more (written ws) own c a (proj1 (written_ok ws)) Hs) as [_ U].
    { intros w Hw Hh. apply (N w Hw). now apply Hr. }
    rewrite U, <- fact_meaning. unfold fact_of. now rewrite H.
  Qed.
  Lemma reference_dies ws more w rest c a : refer (written ws) c = Ok a -> (forall x, In x more -> ~ replaces ws c x) -> replaces ws c w ->
    use (written (ws ++ more ++ w :: rest)) a = UB.
  Proof.
    intros H N R. destruct (refer_still ws c a H) as (own & Hs & Hr).
    unfold written. rewrite !fold_left_app. change (fold_left put_fact ws fact_empty) with (written ws).
    pose proof (proj1 (written_ok ws)) as I.
    destruct (still_run more (written ws) own c a I Hs) as [S' _].
    { intros x Hx Hh. apply (N x Hx). now apply Hr. }
    pose proof (finv_run (written ws) more I) as I'. set (f := fold_left put_fact more (written ws)) in *. clearbody f.
    assert (L : a < next f). { destruct I' as (A & B & _). destruct own; [exact (A c a S')|exact (B a S')]. }
    cbn [fold_left]. apply gone_forever; [destruct w; cbn; lia|]. apply use_replaced; [exact L|].
    apply Hr in R. destruct w as [v|c' v], own; cbn in *; try discriminate; try exact S'.
    - now destruct R as [-> _].
    - now destruct R.
  Qed.
End Facts.

(** * The registry at start-up *)
Definition taken (l : list center) (k : str) : Prop := exists c, In c l /\ same_up_to_case (c_name c) k.
Lemma taken_dec l k : taken l k \/ forall c, In c l -> ~ same_up_to_case (c_name c) k.
Proof.
  induction l as [|x r IH]; [right; intros c []|]. destruct IH as [(c & I & H)|N]; [left; exists c; split; [now right|exact H]|].
  destruct (ci_eqb (c_name x) k) eqn:E.
  - left. exists x. split; [now left|]. now apply ci_eqb_iff.
  - right. intros c [<-|I]; [|now apply N]. intros H. apply ci_eqb_iff in H. congruence.
Qed.
Lemma names_differ : ~ same_up_to_case sse ib.
Proof. intros H. apply same_length in H. vm_compute in H. discriminate. Qed.
Lemma range_of c : good_center c -> Forall (fun d => 0 <= d < 65536) (c_hols c) /\ Forall (fun d => 0 <= d < 65536) (c_wws c).
Proof. intros (_ & _ & A & B). split; eapply Forall_impl; [|exact A| |exact B]; cbv beta; intuition. Qed.
Lemma acceptable_good l c : good_center c -> (acceptable l (c_name c) (c_hols c) (c_wws c) <-> forall x, In x l -> ~ same_up_to_case (c_name x) (c_name c)).
Proof.
  intros (A & B & C & D). unfold acceptable. split; [intros (_ & _ & _ & _ & H); exact H|]. intros H.
  rewrite Forall_forall in C, D. split; [exact A|]. split; [exact B|]. split; [intros d Hd; apply (C d Hd)|]. split; [intros d Hd; apply (D d Hd)|exact H].
Qed.
Lemma add_good h c : reg_inv h -> good_center c ->
  ((forall x, In x (hd_list h) -> ~ same_up_to_case (c_name x) (c_name c)) /\
     snd (add_center h (c_name c) (c_hols c) (c_wws c)) = Ok tt /\ hd_list (fst (add_center h (c_name c) (c_hols c) (c_wws c))) = hd_list h ++ [c] /\
     reg_inv (fst (add_center h (c_name c) (c_hols c) (c_wws c)))) \/
  (taken (hd_list h) (c_name c) /\ add_center h (c_name c) (c_hols c) (c_wws c) = (h, Throw)).
Proof.
  intros I G. destruct (range_of c G) as [R1 R2].
  destruct (add_center_spec h (c_name c) (c_hols c) (c_wws c) I R1 R2) as [(A & B & C & D)|[A B]].
  - left. pose proof (proj1 (acceptable_good (hd_list h) c G) A) as A'. clear A; rename A' into A. split; [exact A|]. split; [exact B|]. split; [|exact D]. destruct c; exact C.
  - right. split; [|exact B]. destruct (taken_dec (hd_list h) (c_name c)) as [T|N]; [exact T|]. contradiction A. exact (proj2 (acceptable_good (hd_list h) c G) N).
Qed.
Lemma calendars_cases w : reg_inv (w_reg w) -> w_calendars w = false ->
  (~ taken (hd_list (w_reg w)) sse /\ ~ taken (hd_list (w_reg w)) ib /\
   exists r, init_calendars w = (World r true (w_days w) (w_fixing w) (w_facts w) (w_all w), Ok tt) /\
             hd_list r = hd_list (w_reg w) ++ [sse_center; ib_center] /\ reg_inv r) \/
  ((taken (hd_list (w_reg w)) sse \/ taken (hd_list (w_reg w)) ib) /\
   exists r l, init_calendars w = (World r false (w_days w) (w_fixing w) (w_facts w) (w_all w), Throw) /\
             hd_list r = hd_list (w_reg w) ++ l /\ reg_inv r).
Proof.
  intros I F. unfold init_calendars. rewrite F.
  destruct (add_good (w_reg w) sse_center I sse_good) as [(N1 & S1 & L1 & I1)|[T1 E1]]; cbn [c_name c_hols c_wws sse_center] in *.
  - destruct (add_center (w_reg w) sse sse_holidays []) as [r1 o1] eqn:E1. cbn [fst snd] in *. subst o1. cbv iota.
    destruct (add_good r1 ib_center I1 ib_good) as [(N2 & S2 & L2 & I2)|[T2 E2]]; cbn [c_name c_hols c_wws ib_center] in *.
    + destruct (add_center r1 ib ib_holidays ib_weekends) as [r2 o2] eqn:E2. cbn [fst snd] in *. subst o2. left.
      rewrite L1 in N2. split; [intros (c & Hc & Hs); exact (N1 c Hc Hs)|]. split.
      { intros (c & Hc & Hs). apply (N2 c); [apply in_app_iff; now left|exact Hs]. }
      exists r2. split; [reflexivity|]. split; [|exact I2]. rewrite L2, L1, <- app_assoc. reflexivity.
    + rewrite E2. right. split; [right|exists r1, [sse_center]; split; [reflexivity|split; [exact L1|exact I1]]].
      destruct T2 as (c & Hc & Hs). rewrite L1 in Hc. apply in_app_iff in Hc as [Hc|[<-|[]]]; [now exists c|]. now apply names_differ in Hs.
  - rewrite E1. right. split; [now left|]. exists (w_reg w), []. split; [reflexivity|]. split; [now rewrite app_nil_r|exact I].
Qed.
Lemma ib_named r : reg_inv r -> In ib_center (hd_list r) -> mk_holidays r [] ib = Ok [ib_center].
Proof.
  intros I H. unfold mk_holidays.
  replace (unique_str (split ib " "%char false)) with [ib] by (vm_compute; reflexivity). cbn [map_outcome].
  replace (of_center r ib) with (Ok ib_center); [reflexivity|]. symmetry. apply of_center_iff; [exact I|]. split; [exact H|]. apply same_refl.
Qed.

(** * Histories *)
Lemma after_app a b : after (a ++ b) = fold_left happen b (after a).
Proof. unfold after. apply fold_left_app. Qed.
Lemma after_snoc es e : after (es ++ [e]) = happen (after es) e.
Proof. now rewrite after_app. Qed.
Lemma range_app a b : in_range (a ++ b) <-> in_range a /\ in_range b.
Proof.
  unfold in_range. split.
  - intros H. split; intros c h k I; apply (H c h k), in_app_iff; auto.
  - intros [A B] c h k I. apply in_app_iff in I as [I|I]; eauto.
Qed.
Lemma names_app a b : names_free (a ++ b) <-> names_free a /\ names_free b.
Proof.
  unfold names_free. split.
  - intros H. split; intros c h k I; apply (H c h k), in_app_iff; auto.
  - intros [A B] c h k I. apply in_app_iff in I as [I|I]; eauto.
Qed.
(** What every history keeps. *)
Definition winv (w : world) : Prop :=
  reg_inv (w_reg w) /\
  (w_all w = true -> w_calendars w = true /\ w_facts w = true) /\
  (w_calendars w = true -> In sse_center (hd_list (w_reg w)) /\ In ib_center (hd_list (w_reg w)) /\ w_all w = w_facts w) /\
  (w_calendars w = false -> w_facts w = false).
Lemma add_any w c h k : reg_inv (w_reg w) -> Forall (fun d => 0 <= d < 65536) h /\ Forall (fun d => 0 <= d < 65536) k ->
  reg_inv (fst (add_center (w_reg w) c h k)) /\ exists l, hd_list (fst (add_center (w_reg w) c h k)) = hd_list (w_reg w) ++ l /\ (forall x, In x l -> c_name x = c).
Proof.
  intros I [R1 R2]. destruct (add_center_spec (w_reg w) c h k I R1 R2) as [(_ & _ & L & I')|[_ E]].
  - split; [exact I'|]. eexists. split; [exact L|]. intros x [<-|[]]. reflexivity.
  - rewrite E. cbn [fst]. split; [exact I|]. exists []. split; [now rewrite app_nil_r|intros x []].
Qed.
(** Init, in a state as above. *)
Lemma init_cases w : winv w ->
  (w_all w = true /\ init_all w = (w, Ok tt)) \/
  (w_calendars w = false /\ ~ taken (hd_list (w_reg w)) sse /\ ~ taken (hd_list (w_reg w)) ib /\
     exists r, hd_list r = hd_list (w_reg w) ++ [sse_center; ib_center] /\ reg_inv r /\
       init_all w = (World r true (put_fact (put_fact (w_days w) (ByDefault 2)) (For CNY 1)) (put_fact (w_fixing w) (For CNY [ib_center])) true true, Ok tt)) \/
  (w_calendars w = false /\ (taken (hd_list (w_reg w)) sse \/ taken (hd_list (w_reg w)) ib) /\
     exists r l, hd_list r = hd_list (w_reg w) ++ l /\ reg_inv r /\
       init_all w = (World r false (w_days w) (w_fixing w) false false, Throw)) \/
  (w_calendars w = true /\ w_facts w = false /\ w_all w = false).
Proof.
  intros (I & A & C & N). unfold init_all. destruct (w_all w) eqn:Ea; [left; now split|].
  destruct (w_calendars w) eqn:Ec.
  - right. right. right. split; [reflexivity|]. destruct (C eq_refl) as (_ & _ & E). now split.
  - right. specialize (N eq_refl). destruct (calendars_cases w I Ec) as [(T1 & T2 & r & E & L & I')|(T & r & l & E & L & I')]; rewrite E; cbv iota beta.
    + left. split; [reflexivity|]. split; [exact T1|]. split; [exact T2|]. exists r. split; [exact L|]. split; [exact I'|].
      unfold init_facts. cbn [w_facts w_reg w_days w_calendars w_fixing w_all]. rewrite N.
      rewrite (ib_named r I'); [reflexivity|]. rewrite L. apply in_app_iff. right. right. now left.
    + right. left. split; [reflexivity|]. split; [exact T|]. exists r, l. split; [exact L|]. split; [exact I'|]. now rewrite N, Ea.
Qed.
Definition winv' (w : world) : Prop := winv w /\ w_all w = w_calendars w.
Lemma winv_after es : in_range es -> winv' (after es).
Proof.
  induction es as [|e es IH] using rev_ind; intros R.
  - split; [|reflexivity]. split; [exact reg_inv_empty|]. repeat split; cbn; discriminate.
  - apply range_app in R as [R1 R2]. specialize (IH R1). rewrite after_snoc. set (w := after es) in *. clearbody w.
    destruct IH as [W E]. destruct e as [|c h k|x|x]; cbn [happen].
    + destruct (init_cases w W) as [[Ea Ei]|[(Ec & _ & _ & r & L & I & Ei)|[(Ec & _ & r & l & L & I & Ei)|(Ec & _ & Ea)]]]; [rewrite Ei|rewrite Ei|rewrite Ei|congruence].
      * now split.
      * split; [|reflexivity]. split; [exact I|]. cbn. split; [now split|]. split; [|discriminate]. intros _. rewrite L. rewrite !in_app_iff. cbn. tauto.
      * split; [|reflexivity]. split; [exact I|]. cbn. repeat split; discriminate.
    + destruct W as (I & A & C & N). destruct (add_any w c h k I (R2 c h k (or_introl eq_refl))) as [I' (l & L & _)].
      split; [|exact E]. split; [exact I'|]. cbn [w_reg w_all w_calendars w_facts]. split; [exact A|]. split; [|exact N].
      intros Ec. destruct (C Ec) as (H1 & H2 & H3). rewrite L, !in_app_iff. tauto.
    + exact (conj W E).
    + exact (conj W E).
Qed.
Lemma free_names es : in_range es -> names_free es -> w_calendars (after es) = false ->
  ~ taken (hd_list (w_reg (after es))) sse /\ ~ taken (hd_list (w_reg (after es))) ib.
Proof.
  induction es as [|e es IH] using rev_ind; intros R F Ec.
  - split; intros (c & [] & _).
  - apply range_app in R as [R1 R2]. apply names_app in F as [F1 F2]. specialize (IH R1 F1). pose proof (winv_after es R1) as [W E].
    rewrite after_snoc in *. set (w := after es) in *. clearbody w. destruct e as [|c h k|x|x]; cbn [happen] in *.
    + destruct (init_cases w W) as [[Ea Ei]|[(Ec' & T1 & T2 & r & L & I & Ei)|[(Ec' & T & r & l & L & I & Ei)|(Ec' & _ & Ea)]]]; try rewrite Ei in *.
      * cbn [fst] in Ec |- *. now apply IH.
      * discriminate.
      * destruct (IH Ec') as [N1 N2]. destruct T; contradiction.
      * congruence.
    + cbn [w_calendars w_reg] in *. destruct (IH Ec) as [N1 N2].
      destruct W as (I & _). destruct (add_any w c h k I (R2 c h k (or_introl eq_refl))) as [_ (l & L & Hl)]. rewrite L.
      assert (S : ~ shipped c) by (apply (F2 c h k); now left).
      split; intros (y & Hy & Hs); apply in_app_iff in Hy as [Hy|Hy]; try (apply N1; now exists y); try (apply N2; now exists y);
      rewrite (Hl y Hy) in Hs; apply S; [now left|now right].
    + now apply IH.
    + now apply IH.
Qed.
Lemma init_ok es : in_range es -> names_free es -> snd (init_all (after es)) = Ok tt.
Proof.
  intros R F. destruct (winv_after es R) as [W E].
  destruct (init_cases _ W) as [[Ea Ei]|[(Ec & T1 & T2 & r & L & I & Ei)|[(Ec & T & r & l & L & I & Ei)|(Ec & _ & Ea)]]].
  - now rewrite Ei.
  - now rewrite Ei.
  - destruct (free_names es R F Ec) as [N1 N2]. destruct T; contradiction.
  - congruence.
Qed.
Lemma all_after es : in_range es -> snd (init_all (after es)) = Ok tt -> w_all (happen (after es) Init) = true.
Proof.
  intros R H. destruct (winv_after es R) as [W E]. cbn [happen].
  destruct (init_cases _ W) as [[Ea Ei]|[(Ec & T1 & T2 & r & L & I & Ei)|[(Ec & T & r & l & L & I & Ei)|(Ec & _ & Ea)]]]; try rewrite Ei in *; try reflexivity.
  - exact Ea.
  - discriminate.
  - congruence.
Qed.
Lemma all_stays more : forall w, w_all w = true -> w_all (fold_left happen more w) = true.
Proof.
  induction more as [|e r IH]; intros w H; [exact H|]. cbn [fold_left]. apply IH. destruct e; cbn; try exact H.
  unfold init_all. now rewrite H.
Qed.
Lemma init_once es more : in_range es -> snd (init_all (after es)) = Ok tt ->
  init_all (after (es ++ Init :: more)) = (after (es ++ Init :: more), Ok tt).
Proof.
  intros R H. unfold init_all at 1. replace (w_all (after (es ++ Init :: more))) with true; [reflexivity|].
  symmetry. rewrite after_app. cbn [fold_left]. apply all_stays. now apply all_after.
Qed.
Lemma centres es : in_range es -> names_free es -> forall more, in_range more ->
  of_center (w_reg (after (es ++ Init :: more))) sse = Ok sse_center /\ of_center (w_reg (after (es ++ Init :: more))) ib = Ok ib_center.
Proof.
  intros R F more R'. assert (R2 : in_range (es ++ Init :: more)).
  { apply range_app. split; [exact R|]. intros c h k [H|H]; [discriminate|]. exact (R' c h k H). }
  destruct (winv_after _ R2) as [(I & A & C & _) E].
  assert (T : w_all (after (es ++ Init :: more)) = true).
  { rewrite after_app. cbn [fold_left]. apply all_stays. apply all_after; [exact R|]. now apply init_ok. }
  destruct (C ltac:(congruence)) as (H1 & H2 & _). split; apply of_center_iff; try exact I; (split; [assumption|apply same_refl]).
Qed.
(** The registry only gains the two centres. *)
Lemma init_registry es : in_range es -> names_free es -> ~ In Init es ->
  hd_list (w_reg (after (es ++ [Init]))) = hd_list (w_reg (after es)) ++ [sse_center; ib_center].
Proof.
  intros R F N. rewrite after_snoc. cbn [happen]. destruct (winv_after es R) as [W E].
  assert (Z0 : w_all (after es) = false).
  { clear - N. induction es as [|e es IH] using rev_ind; [reflexivity|]. rewrite after_snoc.
    assert (w_all (after es) = false) by (apply IH; intros H; apply N, in_app_iff; now left).
    destruct e; cbn; try assumption. contradiction N. apply in_app_iff. right. now left. }
  destruct (init_cases _ W) as [[Ea Ei]|[(Ec & T1 & T2 & r & L & I & Ei)|[(Ec & T & r & l & L & I & Ei)|(Ec & _ & Ea)]]]; try rewrite Ei.
  - congruence.
  - exact L.
  - destruct (free_names es R F Ec) as [N1 N2]. destruct T; contradiction.
  - congruence.
Qed.
(** A name taken before the start-up. *)
Lemma stuck more : forall w, winv' w -> w_calendars w = false -> (taken (hd_list (w_reg w)) sse \/ taken (hd_list (w_reg w)) ib) -> in_range more ->
  snd (init_all (fold_left happen more w)) = Throw.
Proof.
  induction more as [|e r IH]; intros w [W E] Ec T R; cbn [fold_left].
  - destruct (init_cases w W) as [[Ea Ei]|[(_ & T1 & T2 & _)|[(_ & _ & r & l & _ & _ & Ei)|(Ec' & _)]]]; try congruence.
    + destruct T; contradiction.
    + now rewrite Ei.
  - assert (R' : in_range r) by (intros c h k H; apply (R c h k); now right).
    destruct e as [|c h k|x|x]; cbn [happen].
    + destruct (init_cases w W) as [[Ea Ei]|[(_ & T1 & T2 & _)|[(_ & _ & r' & l & L & I & Ei)|(Ec' & _)]]]; try congruence.
      * destruct T; contradiction.
      * rewrite Ei. apply IH; [| reflexivity| |exact R'].
        -- split; [|reflexivity]. split; [exact I|]. cbn. repeat split; discriminate.
        -- cbn [fst w_reg]. rewrite L. destruct T as [(c & Hc & Hs)|(c & Hc & Hs)]; [left|right]; exists c; (split; [apply in_app_iff; now left|exact Hs]).
    + pose proof W as (I & A & C & N). destruct (add_any w c h k I (R c h k (or_introl eq_refl))) as [I' (l & L & _)].
      apply IH; [|exact Ec| |exact R'].
      * split; [|exact E]. split; [exact I'|]. cbn [w_reg w_all w_calendars w_facts]. split; [exact A|]. split; [|exact N]. congruence.
      * cbn [w_reg]. rewrite L. destruct T as [(y & Hc & Hs)|(y & Hc & Hs)]; [left|right]; exists y; (split; [apply in_app_iff; now left|exact Hs]).
    + apply IH; [exact (conj W E)|exact Ec|exact T|exact R'].
    + apply IH; [exact (conj W E)|exact Ec|exact T|exact R'].
Qed.
Lemma no_init_yet es : ~ In Init es -> w_all (after es) = false /\ w_days (after es) = written (days_written es) /\ w_fixing (after es) = written (fixing_written es).
Proof.
  induction es as [|e es IH] using rev_ind; intros N; [now repeat split|]. rewrite after_snoc.
  destruct (IH ltac:(intros H; apply N, in_app_iff; now left)) as (A & B & C).
  assert (D : forall x, days_written (es ++ [x]) = days_written es ++ days_written [x]) by (intros x; clear; induction es as [|e r IH]; [reflexivity|]; destruct e; cbn [app days_written]; rewrite IH; reflexivity).
  assert (F : forall x, fixing_written (es ++ [x]) = fixing_written es ++ fixing_written [x]) by (intros x; clear; induction es as [|e r IH]; [reflexivity|]; destruct e; cbn [app fixing_written]; rewrite IH; reflexivity).
  rewrite D, F. destruct e; cbn [happen w_all w_days w_fixing days_written fixing_written]; rewrite ?app_nil_r; repeat split; try assumption.
  - contradiction N. apply in_app_iff. right. now left.
  - contradiction N. apply in_app_iff. right. now left.
  - contradiction N. apply in_app_iff. right. now left.
  - now rewrite written_snoc, B.
  - now rewrite written_snoc, C.
Qed.
Lemma writes_later more : forall w, w_all w = true ->
  w_days (fold_left happen more w) = fold_left put_fact (days_written more) (w_days w) /\
  w_fixing (fold_left happen more w) = fold_left put_fact (fixing_written more) (w_fixing w).
Proof.
  induction more as [|e r IH]; intros w H; [now split|]. cbn [fold_left].
  destruct e as [|c h k|x|x]; cbn [days_written fixing_written fold_left].
  - replace (happen w Init) with w; [now apply IH|]. cbn [happen]. unfold init_all. now rewrite H.
  - apply (IH (happen w (AddCenter c h k))). exact H.
  - apply (IH (happen w (SetDays x))). exact H.
  - apply (IH (happen w (SetFixing x))). exact H.
Qed.
Lemma facts_after es more : in_range es -> names_free es -> ~ In Init es ->
  w_days (after (es ++ Init :: more)) = written (days_written es ++ [ByDefault 2; For CNY 1] ++ days_written more) /\
  w_fixing (after (es ++ Init :: more)) = written (fixing_written es ++ [For CNY [ib_center]] ++ fixing_written more).
Proof.
  intros R F N. destruct (winv_after es R) as [W E]. destruct (no_init_yet es N) as (A & B & C).
  rewrite after_app. cbn [fold_left].
  assert (T : w_all (happen (after es) Init) = true) by (apply all_after; [exact R|now apply init_ok]).
  destruct (writes_later more _ T) as [-> ->]. cbn [happen].
  destruct (init_cases _ W) as [[Ea Ei]|[(Ec & T1 & T2 & r & L & I & Ei)|[(Ec & T' & r & l & L & I & Ei)|(Ec & _ & Ea)]]]; try rewrite Ei.
  - congruence.
  - cbn [fst w_days w_fixing]. rewrite B, C. unfold written. rewrite !fold_left_app. split; reflexivity.
  - destruct (free_names es R F Ec) as [N1 N2]. destruct T'; contradiction.
  - congruence.
Qed.

(** * Libor *)
Lemma tally_none P a : forall n, (forall e, a <= e < a + Z.of_nat n -> ~ P e) -> tally P a (a + Z.of_nat n) 0.
Proof.
  induction n as [|k IH]; intros H; [rewrite Z.add_0_r; constructor|].
  replace (a + Z.of_nat (S k)) with (a + Z.of_nat k + 1) by lia. apply tally_no; [apply IH; intros e He; apply H; lia|apply H; lia].
Qed.
Lemma first_open c d : c = sse_center \/ c = ib_center -> 0 <= d -> d + 12 < 65536 ->
  exists r, nth_after [c] d 1 r /\ r <= d + 12.
Proof.
  intros Hc Hd Hm. assert (G : good [c]) by (constructor; [destruct Hc as [-> | ->]; [exact sse_good|exact ib_good]|constructor]).
  destruct (open_within c (d + 1) Hc) as (e & He & Be).
  assert (B : forall x, 0 <= x < 65536 -> (bus_test [c] x = true <-> business [c] x)) by (intros x; now apply bus_test_iff).
  destruct (least_in (bus_test [c]) (d + 1) (e - (d + 1)) ltac:(lia)) as (k & Hk & Tk & Mk).
  { replace (d + 1 + (e - (d + 1))) with e by lia. apply B; [lia|exact Be]. }
  exists (d + 1 + k). split; [|lia]. split; [lia|]. split; [apply B; [lia|exact Tk]|].
  apply (tally_yes _ _ (d + 1 + k) 0); [|apply B; [lia|exact Tk]].
  replace k with (Z.of_nat (Z.to_nat k)) by lia. apply tally_none. intros x Hx Hb.
  apply B in Hb; [|lia]. specialize (Mk (x - (d + 1)) ltac:(lia)). replace (d + 1 + (x - (d + 1))) with x in Mk by lia. congruence.
Qed.
Lemma last_for_app {T} c (a b : list (write T)) : last_for c (a ++ b) = match last_for c b with Some v => Some v | None => last_for c a end.
Proof.
  induction a as [|x r IH]; cbn [app last_for]; [now destruct (last_for c b)|]. rewrite IH. now destruct (last_for c b).
Qed.
Lemma last_default_app {T} (a b : list (write T)) : last_default (a ++ b) = match last_default b with Some v => Some v | None => last_default a end.
Proof.
  induction a as [|x r IH]; cbn [app last_default]; [now destruct (last_default b)|]. rewrite IH. now destruct (last_default b).
Qed.
Lemma last_for_none {T} c (a : list (write T)) : (forall v, ~ In (For c v) a) -> last_for c a = None.
Proof.
  induction a as [|x r IH]; intros H; [reflexivity|]. cbn [last_for]. rewrite IH; [|intros v I; apply (H v); now right].
  destruct x as [v|c' v]; [reflexivity|]. destruct (ccy_eq_dec c' c) as [->|]; [|reflexivity]. contradiction (H v). now left.
Qed.
Lemma last_default_none {T} (a : list (write T)) : (forall v, ~ In (ByDefault v) a) -> last_default a = None.
Proof.
  induction a as [|x r IH]; intros H; [reflexivity|]. cbn [last_default]. rewrite IH; [|intros v I; apply (H v); now right].
  destruct x as [v|c' v]; [contradiction (H v); now left|reflexivity].
Qed.
Lemma cny_conventions es more : in_range es -> names_free es -> ~ In Init es ->
  (forall n, ~ In (For CNY n) (days_written more)) -> (forall h, ~ In (For CNY h) (fixing_written more)) ->
  fact_of (w_days (after (es ++ Init :: more))) CNY = Ok 1 /\ fact_of (w_fixing (after (es ++ Init :: more))) CNY = Ok [ib_center].
Proof.
  intros R F N D H. destruct (facts_after es more R F N) as [-> ->]. rewrite !fact_meaning. unfold meaning.
  rewrite !last_for_app, (last_for_none CNY (days_written more) D), (last_for_none CNY (fixing_written more) H). split; reflexivity.
Qed.

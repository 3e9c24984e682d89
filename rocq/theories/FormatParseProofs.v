(** Proofs about laying tables out: reading the format. *)
From Coq Require Import Ascii String List Arith ZArith Bool Lia.
From Verif Require Import Base Vec StringModel MatrixModel FormatModel FormatSpec FormatProofs.
Import ListNotations.
Open Scope nat_scope.

Lemma split_nonempty sep z s : split_top sep z s <> [].
Proof. revert z; induction s as [|c s IH]; intros z; cbn; [discriminate|]. destruct (_ && _); [discriminate|]. destruct (split_top sep (deeper c z) s); discriminate. Qed.
Lemma split_length sep s : forall z, forall p, In p (split_top sep z s) -> length p <= length s.
Proof.
  induction s as [|c s IH]; intros z p; cbn [split_top]; [intros [<-|[]]; cbn; lia|]. destruct (_ && _).
  - intros [<-|H]; [cbn; lia|]. specialize (IH _ _ H). cbn. lia.
  - pose proof (IH (deeper c z)) as IH'. pose proof (split_nonempty sep (deeper c z) s). destruct (split_top sep (deeper c z) s) as [|q ps]; [congruence|]. intros [<-|Hp]; [specialize (IH' q (or_introl eq_refl)); cbn; lia|]. specialize (IH' p (or_intror Hp)). cbn. lia.
Qed.
Lemma split_many sep s : forall z, 2 <= length (split_top sep z s) -> forall p, In p (split_top sep z s) -> length p < length s.
Proof.
  induction s as [|c s IH]; intros z H p Hp; cbn [split_top] in *; [cbn in H; lia|]. destruct (Ascii.eqb c sep && (z =? 0)%Z).
  - destruct Hp as [<-|Hp]; [cbn; lia|]. apply split_length in Hp. cbn. lia.
  - pose proof (IH (deeper c z)) as IH'. pose proof (split_nonempty sep (deeper c z) s). destruct (split_top sep (deeper c z) s) as [|q ps]; [congruence|]. cbn [length] in *. destruct Hp as [<-|Hp]; [cbn [length]; specialize (IH' H q (or_introl eq_refl)); lia|]. specialize (IH' H p (or_intror Hp)). lia.
Qed.
Lemma removelast_length {A} (l : list A) : length (removelast l) = length l - 1.
Proof. induction l as [|a l IH]; [reflexivity|]. destruct l; [reflexivity|]. cbn [removelast length] in *. lia. Qed.
Lemma strip_length f : forall s, length (strip f s) <= length s.
Proof.
  induction f as [|f IH]; intros s; [reflexivity|]. cbn [strip]. destruct s as [|c s]; [reflexivity|]. destruct (_ && _); [|reflexivity]. specialize (IH (removelast (tl (c :: s)))). rewrite removelast_length in IH. cbn [tl length] in *. lia.
Qed.

Lemma parse_all_total (g : str -> outcome writer) ps : (forall p, In p ps -> g p <> OutOfFuel) ->
  (fix all (ps : list str) : outcome (list writer) := match ps with [] => Ok [] | p :: r => do w <- g p; do ws <- all r; Ok (w :: ws) end) ps <> OutOfFuel.
Proof.
  induction ps as [|p ps IH]; intros H; [discriminate|]. pose proof (H p (or_introl eq_refl)). destruct (g p); cbn [obind]; try discriminate; try congruence. specialize (IH (fun q Hq => H q (or_intror Hq))).
  match goal with |- obind ?x _ <> _ => destruct x end; cbn [obind]; discriminate || congruence.
Qed.
Lemma multiple_total f s sep : (forall p, In p (split_top sep 0 s) -> 2 <= length (split_top sep 0 s) -> f p <> OutOfFuel) ->
  forall ps, match split_top sep 0 s with p :: q :: r => Some (p :: q :: r) | _ => None end = Some ps -> forall p, In p ps -> (f : str -> outcome writer) p <> OutOfFuel.
Proof.
  intros H ps E p Hp. destruct (split_top sep 0 s) as [|a [|b l]]; try discriminate. injection E as <-. apply H; [exact Hp|cbn; lia].
Qed.
Lemma new_writer_total f : forall s, length s < f -> new_writer f s <> OutOfFuel.
Proof.
  induction f as [|f IH]; intros s0 Hs; [lia|]. cbn [new_writer]. set (s := strip (length s0) s0). assert (length s <= length s0) as Hl by apply strip_length. clearbody s.
  set (all := fix all (ps : list str) : outcome (list writer) := _). cbv zeta.
  assert (forall ps, (forall p, In p ps -> new_writer f p <> OutOfFuel) -> all ps <> OutOfFuel) as Hall by (intros ps; apply (parse_all_total (new_writer f))). clearbody all.
  assert (forall sep p, In p (split_top sep 0 s) -> 2 <= length (split_top sep 0 s) -> new_writer f p <> OutOfFuel) as Hp by (intros sep p Hp H2; apply IH; pose proof (split_many sep s 0%Z H2 p Hp); lia).
  assert (forall sep ps, match split_top sep 0 s with p :: q :: r => Some (p :: q :: r) | _ => None end = Some ps -> all ps <> OutOfFuel) as Hm by (intros sep ps E; apply Hall; apply (multiple_total (new_writer f) s sep (Hp sep) ps E)).
  repeat match goal with |- context [match (match split_top ?sep 0 s with [] => None | _ => _ end) with Some _ => _ | None => _ end] =>
    let E := fresh "E" in destruct (match split_top sep 0 s with p :: q :: r => Some (p :: q :: r) | _ => None end) as [ps|] eqn:E; [pose proof (Hm sep ps E) as Ha; destruct (all ps); cbn [obind]; discriminate || congruence|] end.
  destruct s as [|c s']; [discriminate|]. set (s := c :: s') in *. assert (new_writer f (removelast s) <> OutOfFuel) as Hb by (apply IH; rewrite removelast_length; unfold s in *; cbn [length] in *; lia).
  repeat match goal with |- context [if ?b then _ else _] => destruct b end; try discriminate; destruct (new_writer f (removelast s)); cbn [obind]; discriminate || congruence.
Qed.

(** balanced text *)
Inductive bal : str -> Prop :=
| bal_nil : bal []
| bal_chr c s : c <> "("%char -> c <> ")"%char -> bal s -> bal (c :: s)
| bal_par a b : bal a -> bal b -> bal ("("%char :: a ++ ")"%char :: b).
Lemma bal_app a b : bal a -> bal b -> bal (a ++ b).
Proof. induction 1; intros; cbn [app]; [assumption|apply bal_chr; auto|]. rewrite <- app_assoc. cbn [app]. apply bal_par; auto. Qed.
Lemma bal_wrap a : bal a -> bal (wrap a).
Proof. intros. unfold wrap. apply (bal_par a []); [assumption|constructor]. Qed.
Lemma bal_join sep ps : sep <> "("%char -> sep <> ")"%char -> Forall bal ps -> bal (join_parts sep ps).
Proof. intros H1 H2 H. induction H as [|p ps Hp H IH]; [constructor|]. destruct ps; [exact Hp|]. change (join_parts sep (p :: _ :: ps)) with (p ++ sep :: join_parts sep (s :: ps)). apply bal_app; [exact Hp|]. now constructor. Qed.
Lemma bal_text w : writable w -> bal (text w).
Proof.
  induction w as [b IH|b IH|b IH|j es IH|j es IH| |k] using writer_induction; cbn [writable text]; intros Hw.
  1-3: (apply bal_app; [apply bal_wrap, IH, Hw|]; repeat (apply bal_chr || constructor; try discriminate)).
  - apply bal_join; [destruct j; discriminate|destruct j; discriminate|]. destruct Hw as [_ Hw]. induction IH as [|e es He IH IHe]; [constructor|]. cbn in Hw. constructor; [apply bal_wrap, He; tauto|apply IHe; tauto].
  - apply bal_join; [destruct j; discriminate|destruct j; discriminate|]. destruct Hw as [_ Hw]. induction IH as [|e es He IH IHe]; [constructor|]. cbn in Hw. constructor; [apply bal_wrap, He; tauto|apply IHe; tauto].
  - repeat (constructor; try discriminate).
  - do 9 (destruct k as [|k]; [repeat (constructor; try discriminate)|]). lia.
Qed.
Lemma deeper_other c z : c <> "("%char -> c <> ")"%char -> deeper c z = z.
Proof. intros H1 H2. unfold deeper. apply Ascii.eqb_neq in H1, H2. now rewrite H1, H2. Qed.
Definition pre (s : str) (l : list str) : list str := match l with p :: ps => (s ++ p) :: ps | [] => [s] end.
Lemma pre_pre a b l : pre a (pre b l) = pre (a ++ b) l.
Proof. destruct l; cbn; now rewrite ?app_assoc. Qed.
Lemma split_step sep z c r : Ascii.eqb c sep && (z =? 0)%Z = false -> split_top sep z (c :: r) = pre [c] (split_top sep (deeper c z) r).
Proof. intros H. cbn [split_top]. now rewrite H. Qed.
Lemma split_in sep s : bal s -> forall z r, (1 <= z)%Z -> split_top sep z (s ++ r) = pre s (split_top sep z r).
Proof.
  assert (forall z, (1 <= z)%Z -> (z =? 0)%Z = false) as Hz by (intros; apply Z.eqb_neq; lia).
  induction 1 as [|c s H1 H2 H IH|a b Ha IHa Hb IHb]; intros z r Hr; cbn [app].
  - pose proof (split_nonempty sep z r). now destruct (split_top sep z r).
  - rewrite split_step by (rewrite Hz by exact Hr; apply andb_false_r). rewrite deeper_other by assumption. rewrite IH by exact Hr. apply pre_pre.
  - rewrite split_step by (rewrite Hz by exact Hr; apply andb_false_r). change (deeper "(" z) with (z + 1)%Z. rewrite <- app_assoc. cbn [app]. rewrite IHa by lia. rewrite split_step by (rewrite Hz by lia; apply andb_false_r). change (deeper ")" (z + 1)) with (z + 1 - 1)%Z. replace (z + 1 - 1)%Z with z by lia. rewrite IHb by exact Hr.
    rewrite !pre_pre. f_equal. cbn [app]. now rewrite <- app_assoc.
Qed.
Lemma split_wrap sep s r : sep <> "("%char -> sep <> ")"%char -> bal s -> split_top sep 0 (wrap s ++ r) = pre (wrap s) (split_top sep 0 r).
Proof.
  intros H1 H2 Hs. unfold wrap. cbn [app]. rewrite split_step by (rewrite (proj2 (Ascii.eqb_neq "(" sep)) by congruence; reflexivity). change (deeper "(" 0) with 1%Z. rewrite <- app_assoc. cbn [app]. rewrite split_in by (assumption || lia). rewrite split_step by apply andb_false_r. change (deeper ")" 1) with 0%Z. rewrite !pre_pre. f_equal.
Qed.
Lemma close_in s : bal s -> forall z r, (1 <= z)%Z -> close_pos z (s ++ r) = length s + close_pos z r.
Proof.
  assert (forall z, (1 <= z)%Z -> (z =? 0)%Z = false) as Hz by (intros; apply Z.eqb_neq; lia).
  induction 1 as [|c s H1 H2 H IH|a b Ha IHa Hb IHb]; intros z r Hr; cbn [app]; [reflexivity| |].
  - cbn [close_pos]. rewrite deeper_other by assumption. rewrite Hz by exact Hr. rewrite IH by exact Hr. reflexivity.
  - cbn [close_pos]. change (deeper "(" z) with (z + 1)%Z. rewrite Hz by lia. rewrite <- app_assoc. cbn [app]. rewrite IHa by lia. cbn [close_pos]. change (deeper ")" (z + 1)) with (z + 1 - 1)%Z. replace (z + 1 - 1)%Z with z by lia. rewrite Hz by exact Hr. rewrite IHb by exact Hr. cbn [length]. rewrite app_length. cbn [length]. lia.
Qed.
Lemma close_wrap s r : bal s -> close_pos 0 (wrap s ++ r) = S (length s).
Proof. intros H. unfold wrap. cbn [app close_pos]. change (deeper "(" 0) with 1%Z. cbn [Z.eqb]. rewrite <- app_assoc. cbn [app]. rewrite close_in by (assumption || lia). cbn [close_pos]. change (deeper ")" 1) with 0%Z. cbn. lia. Qed.
Lemma wrap_length s : length (wrap s) = length s + 2.
Proof. unfold wrap. cbn. rewrite app_length. cbn. lia. Qed.
Lemma strip_wrap f s : bal s -> strip (S f) (wrap s) = strip f s.
Proof.
  intros H. assert (close_pos 0 (wrap s) = S (length s)) as E by (rewrite <- (app_nil_r (wrap s)); now apply close_wrap). unfold wrap in *. cbn [strip]. rewrite E. cbn [length]. rewrite app_length. cbn [length]. replace (S (length s) =? S (length s + 1) - 1) with true by (symmetry; apply Nat.eqb_eq; lia).
  change ("("%char :: s ++ [")"%char]) with (("("%char :: s) ++ [")"%char]) at 1. rewrite last_last. cbn [Ascii.eqb andb tl]. now rewrite removelast_last.
Qed.
Lemma strip_keep f s r : bal s -> r <> [] -> strip f (wrap s ++ r) = wrap s ++ r.
Proof.
  intros H Hr. destruct f; [reflexivity|]. assert (strip (S f) (wrap s ++ r) = if (close_pos 0 (wrap s ++ r) =? length (wrap s ++ r) - 1) && Ascii.eqb (last (wrap s ++ r) " "%char) ")" then strip f (removelast (tl (wrap s ++ r))) else wrap s ++ r) as -> by (unfold wrap; reflexivity).
  rewrite close_wrap by exact H. rewrite app_length, wrap_length. destruct r; [congruence|]. cbn [length]. destruct (Nat.eqb_spec (S (length s)) (length s + 2 + S (length r) - 1)); [lia|]. reflexivity.
Qed.
Lemma join_wraps sep e es : es <> [] -> exists r, join_parts sep (map (fun e => wrap (text e)) (e :: es)) = wrap (text e) ++ sep :: r.
Proof. destruct es; [congruence|]. intros _. eexists. reflexivity. Qed.
Lemma strip_text w f : writable w -> strip f (text w) = text w.
Proof.
  intros Hw. destruct w as [b|b|b|j es|j es| |k]; cbn [writable text] in *.
  1-3: apply strip_keep; [now apply bal_text|discriminate].
  - destruct es as [|e [|e' es]]; cbn in Hw; try lia. destruct (join_wraps (if j then "." else ",")%char e (e' :: es)) as [r ->]; [discriminate|]. apply strip_keep; [apply bal_text; tauto|discriminate].
  - destruct es as [|e [|e' es]]; cbn in Hw; try lia. destruct (join_wraps (if j then ":" else ";")%char e (e' :: es)) as [r ->]; [discriminate|]. apply strip_keep; [apply bal_text; tauto|discriminate].
  - destruct f; reflexivity.
  - do 9 (destruct k as [|k]; [destruct f; reflexivity|]). lia.
Qed.
Lemma split_join sep sep' es : sep <> "("%char -> sep <> ")"%char -> sep' <> "("%char -> sep' <> ")"%char -> es <> [] -> Forall bal es ->
  split_top sep 0 (join_parts sep' (map wrap es)) = if Ascii.eqb sep' sep then map wrap es else [join_parts sep' (map wrap es)].
Proof.
  intros H1 H2 H1' H2' Hne H. induction H as [|e es He H IH]; [congruence|]. destruct es as [|e' es].
  - cbn [map join_parts]. rewrite <- (app_nil_r (wrap e)) at 1. rewrite split_wrap by assumption. cbn [split_top pre]. rewrite app_nil_r. now destruct (Ascii.eqb sep' sep).
  - change (join_parts sep' (map wrap (e :: e' :: es))) with (wrap e ++ sep' :: join_parts sep' (map wrap (e' :: es))). rewrite split_wrap by assumption. specialize (IH ltac:(discriminate)). destruct (Ascii.eqb_spec sep' sep) as [->|Hs].
    + assert (split_top sep 0 (sep :: join_parts sep (map wrap (e' :: es))) = [] :: split_top sep 0 (join_parts sep (map wrap (e' :: es)))) as -> by (cbn [split_top]; now rewrite Ascii.eqb_refl). rewrite IH. cbn [pre]. now rewrite app_nil_r.
    + rewrite split_step by (rewrite (proj2 (Ascii.eqb_neq sep' sep)) by exact Hs; reflexivity). rewrite deeper_other by assumption. rewrite IH. rewrite pre_pre. cbn [pre]. now rewrite <- app_assoc.
Qed.
Lemma split_suffix sep s c : sep <> "("%char -> sep <> ")"%char -> c <> "("%char -> c <> ")"%char -> c <> sep -> bal s -> split_top sep 0 (wrap s ++ [c]) = [wrap s ++ [c]].
Proof.
  intros H1 H2 H3 H4 H5 H. rewrite split_wrap by assumption. rewrite split_step by (rewrite (proj2 (Ascii.eqb_neq c sep)) by exact H5; reflexivity). rewrite deeper_other by assumption. reflexivity.
Qed.
Lemma new_writer_strip f s t : strip (length s) s = strip (length t) t -> new_writer f s = new_writer f t.
Proof. intros E. destruct f; [reflexivity|]. cbn [new_writer]. now rewrite E. Qed.
Lemma new_writer_wrap f w : writable w -> new_writer f (wrap (text w)) = new_writer f (text w).
Proof.
  intros Hw. apply new_writer_strip. rewrite wrap_length, Nat.add_comm. cbn [Nat.add]. rewrite strip_wrap by now apply bal_text. rewrite !strip_text by assumption. reflexivity.
Qed.
Lemma parse_all (g : str -> outcome writer) es : Forall (fun e => g (wrap (text e)) = Ok e) es ->
  (fix all (ps : list str) : outcome (list writer) := match ps with [] => Ok [] | p :: r => do w <- g p; do ws <- all r; Ok (w :: ws) end) (map (fun e => wrap (text e)) es) = Ok es.
Proof. induction 1 as [|e es He H IH]; [reflexivity|]. cbn [map]. rewrite He. cbn [obind]. rewrite IH. reflexivity. Qed.
Lemma join_length sep es : forall e, In e es -> length (text e) + 2 <= length (join_parts sep (map (fun e => wrap (text e)) es)).
Proof.
  induction es as [|a es IH]; intros e; [intros []|]. destruct es as [|b es]; [intros [->|[]]; cbn [map join_parts]; rewrite wrap_length; lia|].
  change (join_parts sep (map (fun e => wrap (text e)) (a :: b :: es))) with (wrap (text a) ++ sep :: join_parts sep (map (fun e => wrap (text e)) (b :: es))). rewrite app_length, wrap_length. cbn [length]. intros [->|H]; [lia|]. specialize (IH e H). lia.
Qed.
Lemma many_ok {X} (es : list writer) (g : writer -> X) : 2 <= length es -> exists p q r, map g es = p :: q :: r.
Proof. destruct es as [|a [|b es]]; cbn; intros; try lia. eauto. Qed.
Lemma all_writable es : fold_right and True (map writable es) -> Forall writable es.
Proof. induction es; cbn; constructor; tauto. Qed.
Lemma parse_text w : writable w -> forall f, length (text w) < f -> new_writer f (text w) = Ok w.
Proof.
  induction w as [b IH|b IH|b IH|j es IH|j es IH| |k] using writer_induction; intros Hw f Hf; (destruct f as [|f]; [lia|]); cbn [new_writer]; rewrite (strip_text _ _ Hw).
  1-3: (cbn [writable text] in *; rewrite app_length, wrap_length in Hf; pose proof (bal_text b Hw) as Hb; pose proof (IH Hw f ltac:(lia)) as E; rewrite <- new_writer_wrap in E by assumption; cbv zeta;
        change (lit "T"%string) with ["T"%char]; change (lit "I"%string) with ["I"%char]; change (lit "*"%string) with ["*"%char]; rewrite !split_suffix by (assumption || discriminate); rewrite last_last, removelast_last, E; unfold wrap at 1; reflexivity).
  - cbn [writable] in Hw. destruct Hw as [H2 Hw]. apply all_writable in Hw. assert (es <> []) as Hne by (destruct es; [cbn in H2; lia|discriminate]).
    assert (text (WHorizontal j es) = join_parts (if j then "." else ",")%char (map wrap (map text es))) as Et by (cbn [text]; now rewrite map_map). assert (Forall bal (map text es)) as Hbal by (apply Forall_map; eapply Forall_impl; [|exact Hw]; intros; now apply bal_text).
    assert (Forall (fun e => new_writer f (wrap (text e)) = Ok e) es) as Hall. { rewrite Forall_forall in *. intros e He. rewrite new_writer_wrap by auto. apply IH; auto. cbn [text] in Hf. pose proof (join_length (if j then "." else ",")%char es e He). lia. }
    apply parse_all in Hall. cbv zeta. rewrite Et. destruct j; rewrite !split_join by (discriminate || assumption || (destruct es; [congruence|discriminate])); cbn [Ascii.eqb Bool.eqb]; rewrite !map_map; destruct (many_ok es (fun e => wrap (text e)) H2) as (p & q & r & Em); rewrite Em in *; rewrite Hall; reflexivity.
  - cbn [writable] in Hw. destruct Hw as [H2 Hw]. apply all_writable in Hw. assert (es <> []) as Hne by (destruct es; [cbn in H2; lia|discriminate]).
    assert (text (WVertical j es) = join_parts (if j then ":" else ";")%char (map wrap (map text es))) as Et by (cbn [text]; now rewrite map_map). assert (Forall bal (map text es)) as Hbal by (apply Forall_map; eapply Forall_impl; [|exact Hw]; intros; now apply bal_text).
    assert (Forall (fun e => new_writer f (wrap (text e)) = Ok e) es) as Hall. { rewrite Forall_forall in *. intros e He. rewrite new_writer_wrap by auto. apply IH; auto. cbn [text] in Hf. pose proof (join_length (if j then ":" else ";")%char es e He). lia. }
    apply parse_all in Hall. cbv zeta. rewrite Et. destruct j; rewrite !split_join by (discriminate || assumption || (destruct es; [congruence|discriminate])); cbn [Ascii.eqb Bool.eqb]; rewrite !map_map; destruct (many_ok es (fun e => wrap (text e)) H2) as (p & q & r & Em); rewrite Em in *; rewrite Hall; reflexivity.
  - reflexivity.
  - cbn [writable] in Hw. do 9 (destruct k as [|k]; [reflexivity|]). lia.
Qed.

(** Property C47: names and fixings of indices. *)
From Coq Require Import Ascii String ZArith List Bool Lia Reals Lra.
From Verif Require Import Base OMap StringModel StringSpec StringProofs DateModel DateSpec DateCivil DateProofs DateTimeModel ScheduleModel PathModel PathSpec PathProofs IndexModel IndexSpec IndexProofs.
Import ListNotations.
Local Open Scope Z_scope.

(** The name of every equity index, parsed by the library, gives back the same index: any name without a closing bracket, any delay text, any
    delivery date that can be read back. *)
Theorem C47_round_trip n d : proper (Equity n d) -> ~ delivery_misread (Equity n d) ->
  clone_index library_parsers (Equity n d) = Ok (Some (Equity n d)).
Proof.
  intros [H Hd] Hm. unfold clone_index. rewrite parse_equity; [|reflexivity|exact H]. rewrite equity_parse by exact H. destruct d as [day|t|]; [|reflexivity|reflexivity].
  destruct (string_round_trip day Hd) as [-> _]. cbn [delivery_misread] in Hm. destruct (in_bad_window (ymd day)); [now contradiction Hm|reflexivity].
Qed.
(** Whatever else is registered, as long as the prefix EQ leads to this parser. *)
Theorem C47_other_parsers n d prefix p : proper (Equity n d) -> ~ delivery_misread (Equity n d) ->
  clone_index (register library_parsers prefix p) (Equity n d) = Ok (Some (Equity n d)).
Proof.
  intros [H Hd] Hm. unfold clone_index. rewrite parse_equity; [|  |exact H].
  - rewrite equity_parse by exact H. destruct d as [day|t|]; [|reflexivity|reflexivity].
    destruct (string_round_trip day Hd) as [-> _]. cbn [delivery_misread] in Hm. destruct (in_bad_window (ymd day)); [now contradiction Hm|reflexivity].
  - unfold register. rewrite (mfind_minsert ci_compare ci_compare_antisym (fun a b c => ci_compare_lt_trans a b c) ci_compare_eq_l).
    + destruct (ci_compare prefix (lit "EQ")) eqn:E; [|reflexivity|reflexivity]. rewrite (mfind_eq ci_compare ci_compare_antisym ci_compare_eq_l _ _ _ E). reflexivity.
    + repeat constructor.
Qed.
Print Assumptions C47_other_parsers.
(** Different equity indices have different names (delivery dates of the misread years included). *)
Theorem C47_distinct n d n' d' : proper (Equity n d) -> proper (Equity n' d') -> index_name (Equity n d) = index_name (Equity n' d') -> Equity n d = Equity n' d'.
Proof.
  intros [H Hd] [H' Hd'] E.
  assert (n = n') as <-.
  { pose proof (find_close n d H) as F. rewrite E, (find_close n' d' H') in F. assert (List.length n = List.length n') as L by lia.
    pose proof (take_name n d) as T. rewrite E, L, take_name in T. congruence. }
  rewrite !equity_name in E. apply app_inv_head in E. f_equal. destruct d as [a|a|], d' as [b|b|]; cbn [tail] in E; try discriminate; try reflexivity.
  - change ("@"%char :: lit (to_string a) = "@"%char :: lit (to_string b)) in E. assert (lit (to_string a) = lit (to_string b)) as E' by congruence. unfold lit in E'. f_equal. apply to_string_inj; [exact Hd|exact Hd'|]. rewrite <- (string_of_list_ascii_of_string (to_string a)), <- (string_of_list_ascii_of_string (to_string b)). now f_equal.
  - injection E as E. now subst.
Qed.
(** The parser of exchange-rate names reads back every pair, once registered. *)
Theorem C47_fx_round_trip dom fgn : clone_index (register library_parsers (lit "FX") fx_parser) (Fx dom fgn) = Ok (Some (Fx dom fgn)).
Proof. destruct dom, fgn; vm_compute; reflexivity. Qed.
Example C47_ex : index_name (Equity (lit "IBM") (At 18322)) = lit "EQ[IBM]@2020-02-29" /\ index_name (Equity (lit "a>b@[c") (After (lit "2BD;]"))) = lit "EQ[a>b@[c]>2BD;]" /\
  proper (Equity (lit "a>b@[c") (After (lit "2BD;]"))) /\ proper (Equity (lit "IBM") (At 18322)) /\ ~ delivery_misread (Equity (lit "IBM") (At 18322)).
Proof.
  split; [vm_compute; reflexivity|]. split; [vm_compute; reflexivity|]. split; [split; [|exact Logic.I]; cbn; intuition discriminate|]. split; [split; [cbn; intuition discriminate|lia]|]. vm_compute. discriminate.
Qed.
(** A delivery date from March 2034 to February 2100 comes back a day early. *)
Theorem C47_misread_refuted n day : ~ In "]"%char n -> 1 <= day < 65536 -> in_bad_window (ymd day) = true ->
  clone_index library_parsers (Equity n (At day)) = Ok (Some (Equity n (At (day - 1)))).
Proof. intros H Hd Hw. unfold clone_index. rewrite parse_equity; [|reflexivity|exact H]. rewrite equity_parse by exact H. destruct (string_round_trip day Hd) as [-> _]. rewrite Hw. reflexivity. Qed.
Print Assumptions C47_misread_refuted.
Example C47_misread_ex : in_bad_window (ymd 40000) = true. Proof. vm_compute. reflexivity. Qed.
(** A closing bracket in an equity name loses the rest; exchange-rate names have no parser in the library; names without a bracket or colon give a
    null pointer, and without a bracket the whole text becomes the equity name. *)
Theorem C47_bracket_refuted : clone_index library_parsers (Equity (lit "A]B") Spot) = Ok (Some (Equity (lit "A") Spot)).
Proof. reflexivity. Qed.
Print Assumptions C47_bracket_refuted.
Theorem C47_fx_refuted dom fgn : clone_index library_parsers (Fx dom fgn) = Throw.
Proof. destruct dom, fgn; vm_compute; reflexivity. Qed.
Print Assumptions C47_fx_refuted.
Theorem C47_malformed_refuted : parse_index library_parsers (lit "IBM") = Ok None /\ parse_index library_parsers (lit "EQ:IBM") = Ok (Some (Equity (lit "EQ:IBM") Spot)).
Proof. split; reflexivity. Qed.
Print Assumptions C47_malformed_refuted.

Section Fixings.
Local Open Scope R_scope.
Lemma past_recorded (h : access (A := RealArith)) name (t : Z * R) quiet : histories_ok h -> good_time t ->
  past_fixing (A := RealArith) (Some h) name t quiet = match recorded h name t with Some x => Ok x | None => if quiet then Ok minus_inf else Throw end.
Proof.
  intros Hh Ht. unfold past_fixing, fetch, recorded. destruct (mfind ci_compare h name) as [[f|]|] eqn:E; [|reflexivity|reflexivity].
  apply (mfind_in ci_compare) in E. destruct E as (k & Hin & _). rewrite find_fix_at; [|exact (Hh _ _ Hin)|exact Ht]. reflexivity.
Qed.
(** An equity fixing is the value recorded under the name of the index, and an error when there is none. *)
Theorem C47_equity_fixing (h : access (A := RealArith)) n d (t : Z * R) : histories_ok h -> good_time t ->
  index_fixing (A := RealArith) (Some h) (Equity n d) t = match recorded h (index_name (Equity n d)) t with Some x => Ok x | None => Throw end.
Proof. intros Hh Ht. unfold index_fixing. now rewrite past_recorded. Qed.
(** An exchange-rate fixing is the value recorded for the pair; failing that, the reciprocal of the value recorded for the inverted pair; failing
    that, an error. (Recorded values are above -1e29, which the code uses for a missing value.) *)
Theorem C47_fx_fixing (h : access (A := RealArith)) dom fgn (t : Z * R) : histories_ok h -> good_time t ->
  (forall x, recorded h (index_name (Fx dom fgn)) t = Some x -> - 10 ^ 29 < x) ->
  index_fixing (A := RealArith) (Some h) (Fx dom fgn) t =
    match recorded h (index_name (Fx dom fgn)) t, recorded h (index_name (Fx fgn dom)) t with
    | Some x, _ => Ok x
    | None, Some y => Ok (1 / y)
    | None, None => Throw
    end.
Proof.
  intros Hh Ht Hx. unfold index_fixing. rewrite past_recorded by assumption. change (fx_name dom fgn false) with (index_name (Fx dom fgn)).
  assert (minus_inf (A := RealArith) = - 10 ^ 29) as M by (change (0 - IZR (10 ^ 29) = - 10 ^ 29); rewrite pow_IZR; change (Z.of_nat 29) with 29%Z; lra).
  destruct (recorded h (index_name (Fx dom fgn)) t) as [x|] eqn:E; cbn [obind].
  - assert (nltb (Arith := RealArith) (minus_inf (A := RealArith)) x = true) as -> by (apply nltb_true; rewrite M; now apply Hx). reflexivity.
  - assert (nltb (Arith := RealArith) (minus_inf (A := RealArith)) (minus_inf (A := RealArith)) = false) as -> by (apply nltb_false; lra).
    rewrite past_recorded by assumption. change (fx_name dom fgn true) with (index_name (Fx fgn dom)). now destruct (recorded h (index_name (Fx fgn dom)) t).
Qed.
(** So the two directions of a pair are reciprocal when only one of them was recorded. *)
Theorem C47_fx_reciprocal (h : access (A := RealArith)) dom fgn (t : Z * R) x : histories_ok h -> good_time t ->
  recorded h (index_name (Fx dom fgn)) t = Some x -> recorded h (index_name (Fx fgn dom)) t = None -> - 10 ^ 29 < x ->
  index_fixing (A := RealArith) (Some h) (Fx dom fgn) t = Ok x /\ index_fixing (A := RealArith) (Some h) (Fx fgn dom) t = Ok (1 / x).
Proof.
  intros Hh Ht E1 E2 Hx. rewrite !C47_fx_fixing; try assumption.
  - now rewrite E1, E2.
  - intros y Hy. congruence.
  - intros y Hy. congruence.
Qed.
Example C47_fx_ex : let h : access (A := RealArith) := [(lit "fx[eur/usd]", Some [((10%Z, 0), 5 / 4)])] in
  histories_ok h /\ good_time (10%Z, 0) /\ recorded h (index_name (Fx USD EUR)) (10%Z, 0) = Some (5 / 4) /\ recorded h (index_name (Fx EUR USD)) (10%Z, 0) = None /\ - 10 ^ 29 < 5 / 4.
Proof.
  intros h. split; [|split; [|split; [|split]]].
  - intros name f [H|[]]. injection H as <- <-. repeat constructor; cbn [fst snd]; try lia; lra.
  - split; cbn [fst snd]; [lia|lra].
  - unfold recorded. change (mfind ci_compare h (index_name (Fx USD EUR))) with (Some (Some [((10%Z, 0), 5 / 4)])). cbn [fixed_at]. destruct (Req_EM_T _ _); [reflexivity|contradiction].
  - reflexivity.
  - apply Rlt_trans with 0; [|lra]. apply Ropp_lt_gt_0_contravar. apply pow_lt. lra.
Qed.
(** Without a fixings store in the environment the exchange-rate fixing dereferences a null pointer instead of reporting an error. *)
Theorem C47_no_store_refuted dom fgn (t : Z * R) : index_fixing (A := RealArith) None (Fx dom fgn) t = UB /\ forall n d, index_fixing (A := RealArith) None (Equity n d) t = Throw.
Proof. split; reflexivity. Qed.
End Fixings.
Print Assumptions C47_equity_fixing.
Print Assumptions C47_fx_reciprocal.
Print Assumptions C47_no_store_refuted.
Print Assumptions C47_round_trip.
Print Assumptions C47_distinct.
Print Assumptions C47_fx_round_trip.
Print Assumptions C47_fx_fixing.

(** C52 for the local volatility model. *)
From Coq Require Import Reals ZArith List Arith Bool Sorted Lra Lia.
From Verif Require Import Base Vec DateTimeModel InterpModel FillModel FillSpec FillProofs BsModel BsSpec BsProofs DupireModel DupireSpec DupireProofs.
Import ListNotations.
Local Open Scope R_scope.

(** For every local volatility surface, every increasing list of product dates from today on whose first date is today
    or more than half a day away, whatever the model was used for before: the simulated times start today, contain the
    product dates and have no step longer than asked; the logarithm of the spot diffuses along them, each step with its
    own draw; sample i has the spot, numeraire, forwards and discounts of product date i. *)
Theorem C52_local_vol fuel m st times defs gauss path :
  surface_ok m -> timeline_ok times -> (nth 0 times 0 = 0 \/ half_day < nth 0 times 0) -> 2 * half_day <= u_max_dt m ->
  (forall t, In t times -> t < u_max_dt m * 2147483647) -> (2 ^ 31 <= Z.of_nat fuel)%Z ->
  length defs = length times -> allocated defs path ->
  exists T, nth_error T 0 = Some 0 /\ increasing T /\ steps_at_most (u_max_dt m / (1 - 2 / 10 ^ 14)) T /\ incl times T /\
    (length gauss = (length T - 1)%nat ->
     exists L p, diffuses m T gauss L /\
       dsimulate fuel m st times defs gauss path = Ok (T, length gauss, p) /\ length p = length times /\
       forall i d old s, nth_error defs i = Some d -> nth_error path i = Some old -> nth_error p i = Some s ->
         exists k, nth_error T k = Some (nth i times 0) /\ d_spot s = exp (L k) /\
           d_numeraire s = (if w_numeraire d then exp (u_r m * nth i times 0) else d_numeraire old) /\
           d_discounts s = map (fun M => exp (- u_r m * (M - nth i times 0))) (w_discounts d) /\
           (forall f, hd_error (d_forwards s) = Some f -> forall x, In x f -> x = exp (L k))).
Proof.
  intros Hm Hok H0 Hdt Hr Hf Hd Hal.
  destruct (timeline_filled fuel times (u_max_dt m) Hok H0 Hdt Hr Hf) as (T & ET & H1 & H2 & H3 & H4).
  exists T. split; [exact H4|]. split; [exact H1|]. split; [exact H2|]. split; [exact H3|]. intros Hg.
  assert (HTs : StronglySorted Rlt T) by (apply steps_SS; exact H1).
  assert (Hts : StronglySorted Rlt times).
  { destruct times as [|t r]; [constructor|]. apply later_SS. apply Hok. }
  destruct (dinit_ready m Hm times defs fuel st T Hd ET) as (st2 & E2 & Hready).
  destruct (dgenerate_ok m Hm times defs T st2 gauss path Hready Hd Hts HTs H3) as (p & Ep & Lp & Hp); try assumption.
  { destruct T; [discriminate H4|discriminate]. }
  { lia. }
  exists (logs m T gauss), p. split; [apply logs_diffuses; assumption|]. split; [|split; [exact Lp|exact Hp]].
  unfold dsimulate. destruct (dallocate fuel m st times) as [st1| | |]; cbn [obind] in E2 |- *; try discriminate.
  rewrite E2. cbn [obind]. rewrite Ep. cbn [obind]. destruct Hready as (R1 & _). rewrite R1. rewrite Hg. reflexivity.
Qed.
Print Assumptions C52_local_vol.

Definition ex_model : dupire := {| u_spot := 100; u_r := 1/50; u_q := 0; u_spots := [80; 120]; u_times := [1]; u_vols := [[1/5]; [1/10]]; u_max_dt := 1/4 |}.
Definition ex_def : ddef := {| w_numeraire := true; w_discounts := [1] |}.
Definition ex_sample : dsample := {| d_spot := 0; d_numeraire := 1; d_discounts := [1]; d_forwards := [[1]] |}.
Example C52_local_vol_case : surface_ok ex_model /\ timeline_ok [0; 1] /\ nth 0 [0; 1] 0 = 0 /\ 2 * half_day <= u_max_dt ex_model /\
  (forall t, In t [0; 1] -> t < u_max_dt ex_model * 2147483647) /\ allocated [ex_def; ex_def] [ex_sample; ex_sample].
Proof.
  split; [|split; [|split; [|split; [|split]]]].
  - split; [discriminate|]. split; [discriminate|]. split; [reflexivity|]. cbn. intros r [<-|[<-|[]]]; reflexivity.
  - cbn. lra.
  - reflexivity.
  - unfold half_day. cbn. lra.
  - cbn. intros t [<-|[<-|[]]]; lra.
  - repeat constructor; discriminate.
Qed.

(** A first product date within half a day of today replaces today: its sample has today's spot, without drift or draw. *)
Theorem C52_half_day_refuted fuel m st d f fs ds n :
  0 < u_spot m -> length ds = length (w_discounts d) ->
  exists s, dsimulate fuel m st [half_day / 2] [d] [] [{| d_spot := 0; d_numeraire := n; d_discounts := ds; d_forwards := f :: fs |}]
            = Ok ([half_day / 2], O, [s]) /\ d_spot s = u_spot m.
Proof.
  intros Hs Hl. pose proof half_pos as Hh.
  unfold dsimulate, dallocate.
  assert (E : fill_data (A := RealArith) fuel [half_day / 2] (u_max_dt m) half_day [0] = Ok [half_day / 2]).
  { assert (Es : sequence (A := RealArith) half_day [half_day / 2] [0] = [half_day / 2]).
    { change (union (A := RealArith) half_day [half_day / 2] [0] = [half_day / 2]).
      rewrite union_cons. replace (before (A := RealArith) half_day (half_day / 2) 0) with false by (symmetry; apply before_R_false; lra).
      replace (before (A := RealArith) half_day 0 (half_day / 2)) with false by (symmetry; apply before_R_false; lra). reflexivity. }
    unfold fill_data. rewrite Es. reflexivity. }
  rewrite E. cbn [obind]. unfold dinit. cbn [v_timeline init_rows obind length loop v_numeraires map].
  unfold init_numeraire. cbn [get nth_error obind].
  assert (Eb : binary_search [half_day / 2] (half_day / 2) = true).
  { apply binary_search_in; [repeat constructor|left; reflexivity]. }
  set (rs := resize (v_numeraires st) 1). assert (Lrs : length rs = 1%nat) by apply resize_length.
  destruct (w_numeraire d) eqn:Ew; cbn [map w_numeraire get nth_error obind].
  - rewrite put_ok by lia. cbn [obind]. unfold dgenerate. cbn [v_common map]. rewrite Eb. cbn [get nth_error obind].
    unfold dfill. cbn [get nth_error obind]. rewrite Ew. cbn [v_numeraires].
    rewrite (get_ok _ 0 0) by (rewrite set_nth_length; lia). cbn [obind d_forwards v_discounts combine map fst snd get nth_error].
    rewrite map_length, <- Hl, Nat.eqb_refl. cbn [put Nat.ltb Nat.leb length set_nth obind v_timeline Nat.sub loop fst snd].
    eexists. split; [reflexivity|]. cbn [d_spot]. apply exp_ln. exact Hs.
  - unfold dgenerate. cbn [v_common map]. rewrite Eb. cbn [get nth_error obind].
    unfold dfill. cbn [get nth_error obind]. rewrite Ew. cbn [obind d_forwards v_discounts combine map fst snd get nth_error].
    rewrite map_length, <- Hl, Nat.eqb_refl. cbn [put Nat.ltb Nat.leb length set_nth obind v_timeline Nat.sub loop fst snd].
    eexists. split; [reflexivity|]. cbn [d_spot]. apply exp_ln. exact Hs.
Qed.
Print Assumptions C52_half_day_refuted.

(** A sample without a table of forwards: its front() is undefined. *)
Theorem C52_no_forwards_refuted m st defs gauss d old rest : v_common st = true :: rest -> nth_error defs 0 = Some d -> w_numeraire d = false ->
  d_forwards old = [] -> dgenerate m defs st gauss [old] = UB.
Proof.
  intros Hc Hd Hw Ho. unfold dgenerate. rewrite Hc. cbn [get nth_error obind]. unfold dfill. cbn [get nth_error obind].
  unfold get. rewrite Hd. cbn [obind]. rewrite Hw. cbn [obind]. rewrite Ho. reflexivity.
Qed.
Print Assumptions C52_no_forwards_refuted.

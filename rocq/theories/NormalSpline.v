(** The spline of the normal distribution function: its derivative is positive on every piece. *)
From Coq Require Import Reals List ZArith Lia Lra.
From Verif Require Import Base Vec InterpModel InterpSpec InterpProofs CubicModel CubicProofs NormalModel.
Import ListNotations.
Local Open Scope R_scope.
Lemma knots_increasing : increasing spline_x.
Proof.
  apply increasing_iff. unfold spline_x. cbn [is_increasing]. repeat (match goal with |- context [Rlt_dec ?a ?b] => destruct (Rlt_dec a b) as [_|C]; [|exfalso; apply C; lra] end). reflexivity.
Qed.
(** the derivative of a cubic in Bernstein form *)
Lemma piece1_pos x0 x1 f0 f1 m0 m1 t : x0 < x1 -> x0 <= t <= x1 -> let h := x1 - x0 in let s := (f1 - f0) / h in
  0 < s - h / 6 * (2 * m0 + m1) -> 0 < s + h / 6 * (m0 - m1) -> 0 < s + h / 6 * (m0 + 2 * m1) -> 0 < piece1 x0 x1 f0 f1 m0 m1 t.
Proof.
  intros Hx Ht h s H0 H1 H2. set (b := (t - x0) / h). assert (Hh : 0 < h) by (unfold h; lra). assert (Eb : b * h = t - x0) by (unfold b; field; lra). assert (Hb : 0 <= b <= 1) by (unfold h in *; split; nra).
  assert (E : piece1 x0 x1 f0 f1 m0 m1 t = (s - h / 6 * (2 * m0 + m1)) * ((1 - b) * (1 - b)) + 2 * (s + h / 6 * (m0 - m1)) * (b * (1 - b)) + (s + h / 6 * (m0 + 2 * m1)) * (b * b)).
  { unfold piece1. fold h b s. cbv zeta. field. }
  rewrite E. set (A := s - _) in *. set (B := s + h / 6 * (m0 - m1)) in *. set (D := s + h / 6 * (m0 + 2 * m1)) in *. clearbody A B D.
  assert (0 <= (1 - b) * (1 - b)) by (apply Rle_0_sqr). assert (0 <= b * b) by apply Rle_0_sqr. assert (0 <= b * (1 - b)) by nra.
  destruct (Rlt_dec b (1 / 2)); [assert (1 / 4 <= (1 - b) * (1 - b)) by nra|assert (1 / 4 <= b * b) by nra]; nra.
Qed.
(** enclosures of the second derivatives at the knots, scaled by a million *)
Lemma enclosed_whole M0 M1 M2 M3 M4 M5 M6 M7 M8 M9 M10 M11 M12 M13 M14 M15 S0 S1 S2 S3 S4 S5 S6 S7 S8 S9 S10 S11 S12 S13 S14 :
  810586 <= S0 <= 810587 ->
  2563435 <= S1 <= 2563436 ->
  6258837 <= S2 <= 6258838 ->
  13048690 <= S3 <= 13048691 ->
  24474171 <= S4 <= 24474172 ->
  42762858 <= S5 <= 42762859 ->
  89143986 <= S6 <= 89143987 ->
  151563021 <= S7 <= 151563022 ->
  193028932 <= S8 <= 193028933 ->
  232998261 <= S9 <= 232998262 ->
  272414985 <= S10 <= 272414986 ->
  309759586 <= S11 <= 309759587 ->
  343647804 <= S12 <= 343647805 ->
  372283870 <= S13 <= 372283871 ->
  393904661 <= S14 <= 393904662 ->
  387199404 * (2 * M0 + M1) = 6000000 * (S0 - 373538) ->
  387199404 * M0 + 2 * (703698463) * M1 + 316499059 * M2 = 6000000 * (S1 - S0) ->
  316499059 * M1 + 2 * (596475971) * M2 + 279976912 * M3 = 6000000 * (S2 - S1) ->
  279976912 * M2 + 2 * (538593898) * M3 + 258616986 * M4 = 6000000 * (S3 - S2) ->
  258616986 * M3 + 2 * (507765273) * M4 + 249148287 * M5 = 6000000 * (S4 - S3) ->
  249148287 * M4 + 2 * (500110156) * M5 + 250961869 * M6 = 6000000 * (S5 - S4) ->
  250961869 * M5 + 2 * (749111656) * M6 + 498149787 * M7 = 6000000 * (S6 - S5) ->
  498149787 * M6 + 2 * (701364092) * M7 + 203214305 * M8 = 6000000 * (S7 - S6) ->
  203214305 * M7 + 2 * (373978882) * M8 + 170764577 * M9 = 6000000 * (S8 - S7) ->
  170764577 * M8 + 2 * (336511947) * M9 + 165747370 * M10 = 6000000 * (S9 - S8) ->
  165747370 * M9 + 2 * (327978750) * M10 + 162231380 * M11 = 6000000 * (S10 - S9) ->
  162231380 * M10 + 2 * (325210142) * M11 + 162978762 * M12 = 6000000 * (S11 - S10) ->
  162978762 * M11 + 2 * (331682325) * M12 + 168703563 * M13 = 6000000 * (S12 - S11) ->
  168703563 * M12 + 2 * (352203745) * M13 + 183500182 * M14 = 6000000 * (S13 - S12) ->
  183500182 * M13 + 2 * (460389924) * M14 + 276889742 * M15 = 6000000 * (S14 - S13) ->
  276889742 * (M14 + 2 * M15) = 6000000 * (398986790 - S14) ->
  1113 < M0 < 1122 /\ 4533 < M1 < 4542 /\ 11681 < M2 < 11690 /\ 24270 < M3 < 24279 /\ 43765 < M4 < 43774 /\ 71542 < M5 < 71551 /\ 108636 < M6 < 108645 /\ 195847 < M7 < 195856 /\ 224725 < M8 < 224734 /\ 239552 < M9 < 239561 /\ 242613 < M10 < 242622 /\ 232059 < M11 < 232068 /\ 207191 < M12 < 207200 /\ 166333 < M13 < 166342 /\ 107309 < M14 < 107318 /\ 1402 < M15 < 1411.
Proof. intros. repeat match goal with |- _ /\ _ => split end; lra. Qed.
Lemma enclosed M0 M1 M2 M3 M4 M5 M6 M7 M8 M9 M10 M11 M12 M13 M14 M15 S0 S1 S2 S3 S4 S5 S6 S7 S8 S9 S10 S11 S12 S13 S14 :
  810586 / 10 ^ 9 <= S0 <= 810587 / 10 ^ 9 ->
  2563435 / 10 ^ 9 <= S1 <= 2563436 / 10 ^ 9 ->
  6258837 / 10 ^ 9 <= S2 <= 6258838 / 10 ^ 9 ->
  13048690 / 10 ^ 9 <= S3 <= 13048691 / 10 ^ 9 ->
  24474171 / 10 ^ 9 <= S4 <= 24474172 / 10 ^ 9 ->
  42762858 / 10 ^ 9 <= S5 <= 42762859 / 10 ^ 9 ->
  89143986 / 10 ^ 9 <= S6 <= 89143987 / 10 ^ 9 ->
  151563021 / 10 ^ 9 <= S7 <= 151563022 / 10 ^ 9 ->
  193028932 / 10 ^ 9 <= S8 <= 193028933 / 10 ^ 9 ->
  232998261 / 10 ^ 9 <= S9 <= 232998262 / 10 ^ 9 ->
  272414985 / 10 ^ 9 <= S10 <= 272414986 / 10 ^ 9 ->
  309759586 / 10 ^ 9 <= S11 <= 309759587 / 10 ^ 9 ->
  343647804 / 10 ^ 9 <= S12 <= 343647805 / 10 ^ 9 ->
  372283870 / 10 ^ 9 <= S13 <= 372283871 / 10 ^ 9 ->
  393904661 / 10 ^ 9 <= S14 <= 393904662 / 10 ^ 9 ->
  387199404 / 10 ^ 9 * (2 * M0 + M1) = 6 * (S0 - 373538 / 10 ^ 9) ->
  387199404 / 10 ^ 9 * M0 + 2 * (703698463 / 10 ^ 9) * M1 + 316499059 / 10 ^ 9 * M2 = 6 * (S1 - S0) ->
  316499059 / 10 ^ 9 * M1 + 2 * (596475971 / 10 ^ 9) * M2 + 279976912 / 10 ^ 9 * M3 = 6 * (S2 - S1) ->
  279976912 / 10 ^ 9 * M2 + 2 * (538593898 / 10 ^ 9) * M3 + 258616986 / 10 ^ 9 * M4 = 6 * (S3 - S2) ->
  258616986 / 10 ^ 9 * M3 + 2 * (507765273 / 10 ^ 9) * M4 + 249148287 / 10 ^ 9 * M5 = 6 * (S4 - S3) ->
  249148287 / 10 ^ 9 * M4 + 2 * (500110156 / 10 ^ 9) * M5 + 250961869 / 10 ^ 9 * M6 = 6 * (S5 - S4) ->
  250961869 / 10 ^ 9 * M5 + 2 * (749111656 / 10 ^ 9) * M6 + 498149787 / 10 ^ 9 * M7 = 6 * (S6 - S5) ->
  498149787 / 10 ^ 9 * M6 + 2 * (701364092 / 10 ^ 9) * M7 + 203214305 / 10 ^ 9 * M8 = 6 * (S7 - S6) ->
  203214305 / 10 ^ 9 * M7 + 2 * (373978882 / 10 ^ 9) * M8 + 170764577 / 10 ^ 9 * M9 = 6 * (S8 - S7) ->
  170764577 / 10 ^ 9 * M8 + 2 * (336511947 / 10 ^ 9) * M9 + 165747370 / 10 ^ 9 * M10 = 6 * (S9 - S8) ->
  165747370 / 10 ^ 9 * M9 + 2 * (327978750 / 10 ^ 9) * M10 + 162231380 / 10 ^ 9 * M11 = 6 * (S10 - S9) ->
  162231380 / 10 ^ 9 * M10 + 2 * (325210142 / 10 ^ 9) * M11 + 162978762 / 10 ^ 9 * M12 = 6 * (S11 - S10) ->
  162978762 / 10 ^ 9 * M11 + 2 * (331682325 / 10 ^ 9) * M12 + 168703563 / 10 ^ 9 * M13 = 6 * (S12 - S11) ->
  168703563 / 10 ^ 9 * M12 + 2 * (352203745 / 10 ^ 9) * M13 + 183500182 / 10 ^ 9 * M14 = 6 * (S13 - S12) ->
  183500182 / 10 ^ 9 * M13 + 2 * (460389924 / 10 ^ 9) * M14 + 276889742 / 10 ^ 9 * M15 = 6 * (S14 - S13) ->
  276889742 / 10 ^ 9 * (M14 + 2 * M15) = 6 * (39898679 / 10 ^ 8 - S14) ->
  1113 / 10 ^ 6 < M0 < 1122 / 10 ^ 6 /\ 4533 / 10 ^ 6 < M1 < 4542 / 10 ^ 6 /\ 11681 / 10 ^ 6 < M2 < 11690 / 10 ^ 6 /\ 24270 / 10 ^ 6 < M3 < 24279 / 10 ^ 6 /\ 43765 / 10 ^ 6 < M4 < 43774 / 10 ^ 6 /\ 71542 / 10 ^ 6 < M5 < 71551 / 10 ^ 6 /\ 108636 / 10 ^ 6 < M6 < 108645 / 10 ^ 6 /\ 195847 / 10 ^ 6 < M7 < 195856 / 10 ^ 6 /\ 224725 / 10 ^ 6 < M8 < 224734 / 10 ^ 6 /\ 239552 / 10 ^ 6 < M9 < 239561 / 10 ^ 6 /\ 242613 / 10 ^ 6 < M10 < 242622 / 10 ^ 6 /\ 232059 / 10 ^ 6 < M11 < 232068 / 10 ^ 6 /\ 207191 / 10 ^ 6 < M12 < 207200 / 10 ^ 6 /\ 166333 / 10 ^ 6 < M13 < 166342 / 10 ^ 6 /\ 107309 / 10 ^ 6 < M14 < 107318 / 10 ^ 6 /\ 1402 / 10 ^ 6 < M15 < 1411 / 10 ^ 6.
Proof.
  intros H0 H1 H2 H3 H4 H5 H6 H7 H8 H9 H10 H11 H12 H13 H14 H15 H16 H17 H18 H19 H20 H21 H22 H23 H24 H25 H26 H27 H28 H29 H30.
  assert (G := enclosed_whole (10 ^ 6 * M0) (10 ^ 6 * M1) (10 ^ 6 * M2) (10 ^ 6 * M3) (10 ^ 6 * M4) (10 ^ 6 * M5) (10 ^ 6 * M6) (10 ^ 6 * M7) (10 ^ 6 * M8) (10 ^ 6 * M9) (10 ^ 6 * M10) (10 ^ 6 * M11) (10 ^ 6 * M12) (10 ^ 6 * M13) (10 ^ 6 * M14) (10 ^ 6 * M15) (10 ^ 9 * S0) (10 ^ 9 * S1) (10 ^ 9 * S2) (10 ^ 9 * S3) (10 ^ 9 * S4) (10 ^ 9 * S5) (10 ^ 9 * S6) (10 ^ 9 * S7) (10 ^ 9 * S8) (10 ^ 9 * S9) (10 ^ 9 * S10) (10 ^ 9 * S11) (10 ^ 9 * S12) (10 ^ 9 * S13) (10 ^ 9 * S14) ltac:(clear - H0; lra) ltac:(clear - H1; lra) ltac:(clear - H2; lra) ltac:(clear - H3; lra) ltac:(clear - H4; lra) ltac:(clear - H5; lra) ltac:(clear - H6; lra) ltac:(clear - H7; lra) ltac:(clear - H8; lra) ltac:(clear - H9; lra) ltac:(clear - H10; lra) ltac:(clear - H11; lra) ltac:(clear - H12; lra) ltac:(clear - H13; lra) ltac:(clear - H14; lra) ltac:(clear - H15; lra) ltac:(clear - H16; lra) ltac:(clear - H17; lra) ltac:(clear - H18; lra) ltac:(clear - H19; lra) ltac:(clear - H20; lra) ltac:(clear - H21; lra) ltac:(clear - H22; lra) ltac:(clear - H23; lra) ltac:(clear - H24; lra) ltac:(clear - H25; lra) ltac:(clear - H26; lra) ltac:(clear - H27; lra) ltac:(clear - H28; lra) ltac:(clear - H29; lra) ltac:(clear - H30; lra)).
  clear - G. destruct G as (G0 & G1 & G2 & G3 & G4 & G5 & G6 & G7 & G8 & G9 & G10 & G11 & G12 & G13 & G14 & G15).
  split; [clear - G0; lra|]. split; [clear - G1; lra|]. split; [clear - G2; lra|]. split; [clear - G3; lra|]. split; [clear - G4; lra|]. split; [clear - G5; lra|]. split; [clear - G6; lra|]. split; [clear - G7; lra|]. split; [clear - G8; lra|]. split; [clear - G9; lra|]. split; [clear - G10; lra|]. split; [clear - G11; lra|]. split; [clear - G12; lra|]. split; [clear - G13; lra|]. split; [clear - G14; lra|]. clear - G15; lra.
Qed.
Lemma quotient_box a b d h : 0 < h -> a * h <= d <= b * h -> a <= d / h <= b.
Proof. intros Hh H. assert (E : d / h * h = d) by (field; lra). split; apply Rmult_le_reg_r with h; lra. Qed.
Lemma box k : (k <= 14)%nat -> nth k [810586; 2563435; 6258837; 13048690; 24474171; 42762858; 89143986; 151563021; 193028932; 232998261; 272414985; 309759586; 343647804; 372283870; 393904661] 0 / 10 ^ 9 <= slope spline_x spline_f k <= (nth k [810586; 2563435; 6258837; 13048690; 24474171; 42762858; 89143986; 151563021; 193028932; 232998261; 272414985; 309759586; 343647804; 372283870; 393904661] 0 + 1) / 10 ^ 9.
Proof. intros Hk. unfold slope, spline_x, spline_f. do 15 (destruct k as [|k]; [cbn [nth]; apply quotient_box; lra|]). lia. Qed.
(** the slopes of the Bernstein form are positive on every piece *)
Lemma spline_slopes m : spline spline_x spline_f spline_lhs spline_rhs m -> forall k, (k <= 14)%nat ->
  let h := nth (S k) spline_x 0 - nth k spline_x 0 in let s := slope spline_x spline_f k in let m0 := nth k m 0 in let m1 := nth (S k) m 0 in
  0 < s - h / 6 * (2 * m0 + m1) /\ 0 < s + h / 6 * (m0 - m1) /\ 0 < s + h / 6 * (m0 + 2 * m1).
Proof.
  intros [_ Si Sl Sr]. destruct Sl as [[_ Sl]|[[C _]|[C _]]]; [|discriminate C|discriminate C]. destruct Sr as [[_ Sr]|[[C _]|[C _]]]; [|discriminate C|discriminate C].
  unfold spline_lhs, spline_rhs in Sl, Sr. cbn [bvalue] in Sl, Sr. change (length spline_x - 1)%nat with 15%nat in Sr. change (length spline_x - 2)%nat with 14%nat in Sr.
  pose proof (Si 1%nat ltac:(lia) ltac:(cbn; lia)) as E1. change (1 - 1)%nat with 0%nat in E1.
  pose proof (Si 2%nat ltac:(lia) ltac:(cbn; lia)) as E2. change (2 - 1)%nat with 1%nat in E2.
  pose proof (Si 3%nat ltac:(lia) ltac:(cbn; lia)) as E3. change (3 - 1)%nat with 2%nat in E3.
  pose proof (Si 4%nat ltac:(lia) ltac:(cbn; lia)) as E4. change (4 - 1)%nat with 3%nat in E4.
  pose proof (Si 5%nat ltac:(lia) ltac:(cbn; lia)) as E5. change (5 - 1)%nat with 4%nat in E5.
  pose proof (Si 6%nat ltac:(lia) ltac:(cbn; lia)) as E6. change (6 - 1)%nat with 5%nat in E6.
  pose proof (Si 7%nat ltac:(lia) ltac:(cbn; lia)) as E7. change (7 - 1)%nat with 6%nat in E7.
  pose proof (Si 8%nat ltac:(lia) ltac:(cbn; lia)) as E8. change (8 - 1)%nat with 7%nat in E8.
  pose proof (Si 9%nat ltac:(lia) ltac:(cbn; lia)) as E9. change (9 - 1)%nat with 8%nat in E9.
  pose proof (Si 10%nat ltac:(lia) ltac:(cbn; lia)) as E10. change (10 - 1)%nat with 9%nat in E10.
  pose proof (Si 11%nat ltac:(lia) ltac:(cbn; lia)) as E11. change (11 - 1)%nat with 10%nat in E11.
  pose proof (Si 12%nat ltac:(lia) ltac:(cbn; lia)) as E12. change (12 - 1)%nat with 11%nat in E12.
  pose proof (Si 13%nat ltac:(lia) ltac:(cbn; lia)) as E13. change (13 - 1)%nat with 12%nat in E13.
  pose proof (Si 14%nat ltac:(lia) ltac:(cbn; lia)) as E14. change (14 - 1)%nat with 13%nat in E14.
  clear Si.
  pose proof (box 0 ltac:(lia)) as B0.
  pose proof (box 1 ltac:(lia)) as B1.
  pose proof (box 2 ltac:(lia)) as B2.
  pose proof (box 3 ltac:(lia)) as B3.
  pose proof (box 4 ltac:(lia)) as B4.
  pose proof (box 5 ltac:(lia)) as B5.
  pose proof (box 6 ltac:(lia)) as B6.
  pose proof (box 7 ltac:(lia)) as B7.
  pose proof (box 8 ltac:(lia)) as B8.
  pose proof (box 9 ltac:(lia)) as B9.
  pose proof (box 10 ltac:(lia)) as B10.
  pose proof (box 11 ltac:(lia)) as B11.
  pose proof (box 12 ltac:(lia)) as B12.
  pose proof (box 13 ltac:(lia)) as B13.
  pose proof (box 14 ltac:(lia)) as B14.
  set (S0 := slope spline_x spline_f 0) in *. set (S1 := slope spline_x spline_f 1) in *. set (S2 := slope spline_x spline_f 2) in *. set (S3 := slope spline_x spline_f 3) in *. set (S4 := slope spline_x spline_f 4) in *. set (S5 := slope spline_x spline_f 5) in *. set (S6 := slope spline_x spline_f 6) in *. set (S7 := slope spline_x spline_f 7) in *. set (S8 := slope spline_x spline_f 8) in *. set (S9 := slope spline_x spline_f 9) in *. set (S10 := slope spline_x spline_f 10) in *. set (S11 := slope spline_x spline_f 11) in *. set (S12 := slope spline_x spline_f 12) in *. set (S13 := slope spline_x spline_f 13) in *. set (S14 := slope spline_x spline_f 14) in *.
  set (M0 := nth 0 m 0) in *. set (M1 := nth 1 m 0) in *. set (M2 := nth 2 m 0) in *. set (M3 := nth 3 m 0) in *. set (M4 := nth 4 m 0) in *. set (M5 := nth 5 m 0) in *. set (M6 := nth 6 m 0) in *. set (M7 := nth 7 m 0) in *. set (M8 := nth 8 m 0) in *. set (M9 := nth 9 m 0) in *. set (M10 := nth 10 m 0) in *. set (M11 := nth 11 m 0) in *. set (M12 := nth 12 m 0) in *. set (M13 := nth 13 m 0) in *. set (M14 := nth 14 m 0) in *. set (M15 := nth 15 m 0) in *.
  assert (ES : forall k, (k <= 14)%nat -> slope spline_x spline_f k = nth k [S0; S1; S2; S3; S4; S5; S6; S7; S8; S9; S10; S11; S12; S13; S14] 0) by (intros k Hk; do 15 (destruct k as [|k]; [reflexivity|]); lia).
  assert (EM : forall k, (k <= 15)%nat -> nth k m 0 = nth k [M0; M1; M2; M3; M4; M5; M6; M7; M8; M9; M10; M11; M12; M13; M14; M15] 0) by (intros k Hk; do 16 (destruct k as [|k]; [reflexivity|]); lia).
  clearbody S0 S1 S2 S3 S4 S5 S6 S7 S8 S9 S10 S11 S12 S13 S14 M0 M1 M2 M3 M4 M5 M6 M7 M8 M9 M10 M11 M12 M13 M14 M15. unfold spline_x in Sl, Sr, E1, E2, E3, E4, E5, E6, E7, E8, E9, E10, E11, E12, E13, E14.
  cbn [nth] in Sl, Sr, E1, E2, E3, E4, E5, E6, E7, E8, E9, E10, E11, E12, E13, E14, B0, B1, B2, B3, B4, B5, B6, B7, B8, B9, B10, B11, B12, B13, B14.
  assert (Sl' : 387199404 / 10 ^ 9 * (2 * M0 + M1) = 6 * (S0 - 373538 / 10 ^ 9)) by (rewrite Sl; field).
  assert (Sr' : 276889742 / 10 ^ 9 * (M14 + 2 * M15) = 6 * (39898679 / 10 ^ 8 - S14)) by (rewrite Sr; field).
  assert (EN := enclosed M0 M1 M2 M3 M4 M5 M6 M7 M8 M9 M10 M11 M12 M13 M14 M15 S0 S1 S2 S3 S4 S5 S6 S7 S8 S9 S10 S11 S12 S13 S14 ltac:(clear - B0; lra) ltac:(clear - B1; lra) ltac:(clear - B2; lra) ltac:(clear - B3; lra) ltac:(clear - B4; lra) ltac:(clear - B5; lra) ltac:(clear - B6; lra) ltac:(clear - B7; lra) ltac:(clear - B8; lra) ltac:(clear - B9; lra) ltac:(clear - B10; lra) ltac:(clear - B11; lra) ltac:(clear - B12; lra) ltac:(clear - B13; lra) ltac:(clear - B14; lra) Sl' ltac:(clear - E1; lra) ltac:(clear - E2; lra) ltac:(clear - E3; lra) ltac:(clear - E4; lra) ltac:(clear - E5; lra) ltac:(clear - E6; lra) ltac:(clear - E7; lra) ltac:(clear - E8; lra) ltac:(clear - E9; lra) ltac:(clear - E10; lra) ltac:(clear - E11; lra) ltac:(clear - E12; lra) ltac:(clear - E13; lra) ltac:(clear - E14; lra) Sr').
  clear Sl Sr Sl' Sr' E1 E2 E3 E4 E5 E6 E7 E8 E9 E10 E11 E12 E13 E14. intros k Hk h s m0 m1. unfold h, s, m0, m1. rewrite (ES k Hk), (EM k) by lia. rewrite (EM (S k)) by lia. clear ES EM h s m0 m1. unfold spline_x.
  destruct EN as (N0 & N1 & N2 & N3 & N4 & N5 & N6 & N7 & N8 & N9 & N10 & N11 & N12 & N13 & N14 & N15).
  destruct k as [|k]; [clear - B0 N0 N1; cbn [nth]; repeat split; lra|].
  destruct k as [|k]; [clear - B1 N1 N2; cbn [nth]; repeat split; lra|].
  destruct k as [|k]; [clear - B2 N2 N3; cbn [nth]; repeat split; lra|].
  destruct k as [|k]; [clear - B3 N3 N4; cbn [nth]; repeat split; lra|].
  destruct k as [|k]; [clear - B4 N4 N5; cbn [nth]; repeat split; lra|].
  destruct k as [|k]; [clear - B5 N5 N6; cbn [nth]; repeat split; lra|].
  destruct k as [|k]; [clear - B6 N6 N7; cbn [nth]; repeat split; lra|].
  destruct k as [|k]; [clear - B7 N7 N8; cbn [nth]; repeat split; lra|].
  destruct k as [|k]; [clear - B8 N8 N9; cbn [nth]; repeat split; lra|].
  destruct k as [|k]; [clear - B9 N9 N10; cbn [nth]; repeat split; lra|].
  destruct k as [|k]; [clear - B10 N10 N11; cbn [nth]; repeat split; lra|].
  destruct k as [|k]; [clear - B11 N11 N12; cbn [nth]; repeat split; lra|].
  destruct k as [|k]; [clear - B12 N12 N13; cbn [nth]; repeat split; lra|].
  destruct k as [|k]; [clear - B13 N13 N14; cbn [nth]; repeat split; lra|].
  destruct k as [|k]; [clear - B14 N14 N15; cbn [nth]; repeat split; lra|].
  lia.
Qed.

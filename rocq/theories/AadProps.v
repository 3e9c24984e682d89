(** C32: differentiating through the tape gives the derivative. *)
From Coq Require Import ZArith Reals List Arith Bool Lia Lra.
From Verif Require Import Base Vec BlockModel BlockProofs AadModel AadSpec AadStore AadProofs AadExec AadRealSpec AadReal AadGradient.
Import ListNotations.
Open Scope nat_scope.

(** the tape over the real numbers *)
Definition r_gradient ncdf erfc := gradient 0%R 1%R Rplus Rmult r_tiny r_is_zero r_beval r_bleft r_bright (r_ueval ncdf erfc) r_uder.
Definition r_path_gradient ncdf erfc := path_gradient 0%R 1%R Rplus Rmult r_tiny r_is_zero r_beval r_bleft r_bright (r_ueval ncdf erfc) r_uder.

(** Record any program of the operations of expr.hpp, propagate from any result back to the start.  The values are those of
    the program evaluated with plain numbers.  If no adjoint was dropped for being small, the adjoint of every input
    is the derivative of the result with respect to it. *)
Theorem C32_gradient : forall (ncdf erfc : R -> R) (BN BD : nat) (x : nat -> R) (p : list (stmt R)) (result : nat), 0 < BN -> 0 < BD ->
  scoped p 0 -> leaves_fit BD p -> result < length p -> smooth_program ncdf erfc x p [] ->
  exists ns t, r_gradient ncdf erfc BN BD x p result = Ok (ns, t) /\ map value ns = r_values ncdf erfc x p [] /\
    (dropped t = false -> forall i q, only_input p i q -> exists n a, nth_error ns q = Some n /\ get_adjoint (at_node n) t = Ok a /\
       derivable_pt_lim (fun y => nth result (r_values ncdf erfc (with_input x i y) p []) 0%R) (x i) a).
Proof.
  intros ncdf erfc BN BD x p result HN HD Hs Hf Hr Hsm.
  destruct (gradient_ok 0%R 1%R Rplus Rmult r_tiny r_is_zero r_beval r_bleft r_bright (r_ueval ncdf erfc) r_uder BN BD HN HD x p result Hs Hf Hr) as (t & L & E & Si & Dr).
  eexists _, t. split; [exact E|]. split.
  - unfold numbers. rewrite map_map. cbn [value]. unfold r_values. set (vs := values _ _ _ _ _ _). clearbody vs. clear.
    induction vs as [|v vs IH] using rev_ind; [reflexivity|]. rewrite app_length. cbn [length]. rewrite Nat.add_1_r, seq_S, map_app. cbn [map Nat.add]. f_equal.
    + etransitivity; [|exact IH]. apply map_ext_in. intros k Hk. apply in_seq in Hk. now rewrite app_nth1 by lia.
    + rewrite app_nth2, Nat.sub_diag by lia. reflexivity.
  - intros Hd i q Hq. assert (q < length p) as Hqn by (apply nth_error_Some; rewrite (proj2 (Hq q) eq_refl); discriminate).
    pose proof (numbers_get 0%R BN (values 0%R r_beval (r_ueval ncdf erfc) x p []) q) as Hg.
    rewrite values_length in Hg. specialize (Hg Hqn). unfold get in Hg. destruct (nth_error _ q) as [n|]; [|discriminate]. injection Hg as ->.
    eexists _, _. split; [reflexivity|]. cbn [at_node]. split.
    + refine (get_adjoint_ok 0%R BN BD HN HD _ _ _ _ _ Si _). unfold a_gradient. rewrite a_all_length. cbn [fst]. rewrite a_set_length. unfold fresh. now rewrite map_length, recorded_length.
    + apply gradient_value; auto. now rewrite <- Dr.
Qed.
Print Assumptions C32_gradient.
Example C32_gradient_example :
  let p := [Input 0; Input 1; Expr (Bin OPAdd (Bin OPMult (Num 0) (Num 0)) (Un OPExp (Num 1) 0%R)); Expr (Un OPLog (Num 2) 0%R)] in
  scoped p 0 /\ leaves_fit 8 p /\ 3 < length p /\ smooth_program (fun _ => 0%R) (fun _ => 0%R) (fun _ => 2%R) p [] /\ only_input p 0 0 /\ only_input p 1 1.
Proof.
  cbv zeta. split; [cbn; repeat constructor; lia|]. split; [repeat constructor; cbn; lia|]. split; [cbn; lia|]. split.
  - cbn [smooth_program smooth eval value_of app nth b_smooth u_smooth r_beval r_ueval]. repeat split. pose proof (exp_pos 2). nra.
  - split; intros [|[|[|[|k]]]]; cbn; split; intros H; try discriminate; try reflexivity; try lia; destruct k; discriminate.
Qed.

(** Paths: parameters and set-up recorded once and marked, then each path recorded after the mark, differentiated back to
    the mark and given up, and at the end the set-up differentiated from the mark to the start (MCSimulation with AAD).  The
    adjoint of each parameter is the derivative of the sum over the paths. *)
Theorem C32_paths : forall (ncdf erfc : R -> R) (BN BD : nat) (x : nat -> R) (pre : list (stmt R)) (l : list (list (stmt R) * nat)), 0 < BN -> 0 < BD ->
  scoped pre 0 -> leaves_fit BD pre -> pre <> [] -> smooth_program ncdf erfc x pre [] ->
  Forall (fun c => scoped (fst c) (length pre) /\ leaves_fit BD (fst c) /\ length pre <= snd c < length pre + length (fst c) /\
                   smooth_program ncdf erfc x (fst c) (r_values ncdf erfc x pre [])) l ->
  exists ns t, r_path_gradient ncdf erfc BN BD x pre l = Ok (ns, t) /\
    (dropped t = false -> forall i q, only_input pre i q -> Forall (fun c => no_input (fst c) i) l ->
     exists n a, nth_error ns q = Some n /\ get_adjoint (at_node n) t = Ok a /\
       derivable_pt_lim (fun y => fold_right Rplus 0%R (map (fun c => nth (snd c) (r_values ncdf erfc (with_input x i y) (fst c)
                                      (r_values ncdf erfc (with_input x i y) pre [])) 0%R) l)) (x i) a).
Proof.
  intros ncdf erfc BN BD x pre l HN HD Hs Hf Hne Hsm Hl.
  destruct (path_gradient_ok 0%R 1%R Rplus Rmult r_tiny r_is_zero r_beval r_bleft r_bright (r_ueval ncdf erfc) r_uder BN BD HN HD x pre l Hs Hf Hne) as (t & L & E & Si & Dr).
  { eapply Forall_impl; [|exact Hl]. intros c Hc. cbv beta in Hc. unfold path_ok. tauto. }
  eexists _, t. split; [exact E|]. intros Hd i q Hq Hni. assert (q < length pre) as Hqn by (apply nth_error_Some; rewrite (proj2 (Hq q) eq_refl); discriminate).
  pose proof (numbers_get 0%R BN (values 0%R r_beval (r_ueval ncdf erfc) x pre []) q) as Hg.
  rewrite values_length in Hg. specialize (Hg Hqn). unfold get in Hg. destruct (nth_error _ q) as [n|]; [|discriminate]. injection Hg as ->.
  eexists _, _. split; [reflexivity|]. cbn [at_node]. split.
  - refine (get_adjoint_ok 0%R BN BD HN HD _ _ _ _ _ Si _). unfold a_path_gradient. rewrite a_all_length.
    eapply Nat.lt_le_trans; [exact Hqn|]. assert (length pre = length (values 0%R r_beval (r_ueval ncdf erfc) x pre [])) as Hv by (rewrite values_length; reflexivity).
    rewrite Hv at 1. assert (forall c s, length (values 0%R r_beval (r_ueval ncdf erfc) x pre []) <= length (fst s) ->
      length (values 0%R r_beval (r_ueval ncdf erfc) x pre []) <= length (fst (a_paths 0%R 1%R Rplus Rmult r_tiny r_is_zero r_beval r_bleft r_bright (r_ueval ncdf erfc) r_uder x (values 0%R r_beval (r_ueval ncdf erfc) x pre []) c s))) as HL.
    { induction c as [|[p r] c IH]; intros s Hle; cbn [a_paths]; [exact Hle|]. apply IH. rewrite a_all_length. cbn [fst]. rewrite a_set_length, app_length, firstn_length. lia. }
    apply HL. cbn [fst]. unfold fresh. rewrite map_length, recorded_length. lia.
  - apply path_gradient_value; auto; [|now rewrite <- Dr]. rewrite Forall_forall in *. intros c Hc. specialize (Hl c Hc). specialize (Hni c Hc). cbv beta in *. tauto.
Qed.
Print Assumptions C32_paths.
Example C32_paths_example :
  let pre := [Input 0; Expr (Un OPMultD (Num 0) 3%R)] in
  let l := [([Expr (Bin OPMult (Num 1) (Num 0))], 2); ([Const 5%R; Expr (Bin OPDiv (Num 2) (Num 1))], 3)] in
  scoped pre 0 /\ leaves_fit 4 pre /\ pre <> [] /\ smooth_program (fun _ => 0%R) (fun _ => 0%R) (fun _ => 2%R) pre [] /\ only_input pre 0 0 /\
  Forall (fun c => scoped (fst c) (length pre) /\ leaves_fit 4 (fst c) /\ length pre <= snd c < length pre + length (fst c) /\
                   smooth_program (fun _ => 0%R) (fun _ => 0%R) (fun _ => 2%R) (fst c) (r_values (fun _ => 0%R) (fun _ => 0%R) (fun _ => 2%R) pre []) /\ no_input (fst c) 0) l.
Proof.
  cbv zeta. split; [cbn; repeat constructor; lia|]. split; [repeat constructor; cbn; lia|]. split; [discriminate|]. split; [cbn; auto|]. split.
  - intros [|[|k]]; cbn; split; intros H; try discriminate; try reflexivity; destruct k; discriminate.
  - repeat constructor; cbn; try lia; try (repeat constructor; lia); try tauto; unfold no_input; cbn; try lra; intros H; repeat destruct H as [H|H]; discriminate || contradiction.
Qed.

(** An adjoint of 2e-14 or less is dropped, however large the derivative it would have been multiplied with: with
    y = 1e20 x and z = 1e-20 y the derivative of z is 1, and 0 is returned. *)
Theorem C32_tiny_refuted : forall (BN BD : nat), 0 < BN -> 0 < BD ->
  let big := (10 ^ 20)%R in let p := [Input 0; Expr (Un OPMultD (Num 0) big); Expr (Un OPMultD (Num 1) (/ big)%R)] in
  exists ns t n, r_gradient (fun _ => 0%R) (fun _ => 0%R) BN BD (fun _ => 1%R) p 2 = Ok (ns, t) /\ nth_error ns 0 = Some n /\ get_adjoint (at_node n) t = Ok 0%R /\
    derivable_pt_lim (fun y => nth 2 (r_values (fun _ => 0%R) (fun _ => 0%R) (with_input (fun _ => 1%R) 0 y) p []) 0%R) 1%R 1%R.
Proof.
  intros BN BD HN HD big p. assert (0 < big)%R as Hb by (unfold big; apply pow_lt; lra).
  assert (1 <= 2 / 100000000000000 * big)%R as Hbig by (unfold big; lra). clearbody big.
  destruct (gradient_ok 0%R 1%R Rplus Rmult r_tiny r_is_zero r_beval r_bleft r_bright (r_ueval (fun _ => 0%R) (fun _ => 0%R)) r_uder BN BD HN HD (fun _ => 1%R) p 2) as (t & L & E & Si & Dr).
  { cbn. repeat constructor; lia. } { repeat constructor; cbn; lia. } { cbn; lia. }
  eexists _, t, _. split; [exact E|]. split; [reflexivity|]. cbn [at_node numbers].
  assert (adj 0%R (fst (a_gradient 0%R 1%R Rplus Rmult r_tiny r_is_zero r_beval r_bleft r_bright (r_ueval (fun _ => 0%R) (fun _ => 0%R)) r_uder (fun _ => 1%R) p 2)) 0 = 0%R) as Ha.
  { cbn. unfold r_tiny. destruct (Rle_dec (Rabs 1) _) as [Q|_]; [rewrite Rabs_R1 in Q; lra|]. cbn. destruct (Rle_dec _ _) as [_|Q]; [reflexivity|]. exfalso. apply Q.
    replace (0 + 1 * (1 * / big))%R with (/ big)%R by ring. rewrite Rabs_right by (apply Rle_ge, Rlt_le, Rinv_0_lt_compat, Hb).
    apply (Rmult_le_reg_r big); [exact Hb|]. rewrite Rinv_l by lra. exact Hbig. }
  split.
  - rewrite <- Ha. refine (get_adjoint_ok 0%R BN BD HN HD _ _ _ _ 0 Si _). unfold a_gradient. rewrite a_all_length. cbn. lia.
  - eapply derivable_pt_lim_ext; [|apply derivable_pt_lim_id]. intros y. unfold id. cbn. field. lra.
Qed.
Print Assumptions C32_tiny_refuted.

(** A result recorded before the mark (a path whose result is a parameter): propagation to the mark leaves the tape. *)
Theorem C32_before_mark_refuted : 
  path_gradient 0%Z 1%Z Z.add Z.mul (fun z => z =? 0)%Z (fun z => z =? 0)%Z (fun _ l _ => l) (fun _ _ _ _ => 1%Z) (fun _ _ _ _ => 1%Z) (fun _ r _ => r) (fun _ _ _ _ => 1%Z)
    (Z.to_nat 16384) (Z.to_nat 65536) (fun _ => 7%Z) [Input 0; Input 1] [([], 0)] = UB.
Proof. vm_compute. reflexivity. Qed.
Print Assumptions C32_before_mark_refuted.

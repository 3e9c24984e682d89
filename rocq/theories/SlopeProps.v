(** C92: the slopes of the payout along the draws have the sensitivities of the formulas for their expectation. *)
From Coq Require Import String Reals List ZArith Lra Lia.
From Coquelicot Require Import Coquelicot.
From Verif Require Import Base StringModel BrentModel BlackModel BlackSpec BlackProofs BlackNormal ExpectSpec ExpectProofs ExpectProps MomentSpec MomentProofs MomentProps SlopeSpec SlopeProofs.
From Verif Require Import ScriptModel ScriptSpec FuzzySpec DomainSpec ValueModel ValueSpec BsSpec PriceSpec PriceProps.
From Verif Require BsModel.
Import ListNotations.
Local Open Scope R_scope.

(** There is at most one expected slope. *)
Theorem C92_unique n pay x s s' : expected_slope n pay x s -> expected_slope n pay x s' -> s = s'.
Proof.
  intros (p & d & Hd & Hm) (p' & d' & Hd' & Hm'). set (h := fun z => if Req_EM_T z p then d' z else d z). apply (mean_unique n d' s s'); [|exact Hm'].
  apply (mean_but n h d' p').
  - intros z Hz. unfold h. destruct (Req_EM_T z p) as [|Hp]; [reflexivity|]. exact (uniqueness_limite _ _ _ _ (Hd z Hp) (Hd' z Hz)).
  - apply (mean_but n d h p); [|exact Hm]. intros z Hz. unfold h. destruct (Req_EM_T z p); [contradiction|reflexivity].
Qed.
Print Assumptions C92_unique.
(** The forward delta and the vega of BlackGreeks are the expectations of the slopes, in the forward and in the volatility, of the payout on the
    lognormal number a draw makes. *)
Theorem C92_black N n f v k t : normal_law N n -> 0 < f -> 0 < k -> 0 < v -> t <> NotSet ->
  exists delta vega pay, black_greeks N n f v k t = Ok (Some (delta, vega)) /\ (forall x y z, payout t (lognormal x y z) k = Ok (pay x y z)) /\
    expected_slope n (fun x z => pay x v z) f delta /\ expected_slope n (fun y z => pay f y z) v vega.
Proof.
  intros HN Hf Hk Hv Ht. exists (calls t * N (d_plus f v k) + forwards t * 1), (calls t * (f * n (d_plus f v k)) + forwards t * 0), (fun x y z => made t (lognormal x y z) k).
  split; [|split; [intros x y z; now apply made_payout|split; [exact (log_delta N n HN f v k Hf Hk Hv t)|exact (log_vega N n HN f v k Hf Hk Hv t)]]].
  unfold black_greeks. cbv zeta. assert (E : BrentModel.reqb v 0 = false) by (unfold BrentModel.reqb; destruct (Req_EM_T v 0); [lra|reflexivity]).
  assert (E' : BrentModel.rleb (f * k) 0 = false) by (unfold BrentModel.rleb; destruct (Rle_dec (f * k) 0); [nra|reflexivity]). rewrite E, E'. cbn [orb].
  destruct t; [| | |contradiction]; cbn [calls forwards]; do 2 apply f_equal; rewrite ?(nl_sym _ _ HN); f_equal; ring.
Qed.
(** So are those of BachelierGreeks on a forward and a normal number. *)
Theorem C92_bachelier N n f v k t : normal_law N n -> 0 < v -> t <> NotSet ->
  exists delta vega pay, bachelier_greeks N n f v k t = Ok (Some (delta, vega)) /\ (forall x y z, payout t (shifted x y z) k = Ok (pay x y z)) /\
    expected_slope n (fun x z => pay x v z) f delta /\ expected_slope n (fun y z => pay f y z) v vega.
Proof.
  intros HN Hv Ht. exists (calls t * N ((f - k) / v) + forwards t * 1), (calls t * n ((f - k) / v) + forwards t * 0), (fun x y z => made t (shifted x y z) k).
  split; [|split; [intros x y z; now apply made_payout|split; [exact (nor_delta N n HN f v k Hv t)|exact (nor_vega N n HN f v k Hv t)]]].
  unfold bachelier_greeks. cbv zeta. assert (E : BrentModel.reqb v 0 = false) by (unfold BrentModel.reqb; destruct (Req_EM_T v 0); [lra|reflexivity]). rewrite E.
  destruct t; [| | |contradiction]; cbn [calls forwards]; do 2 apply f_equal; rewrite ?(nl_sym _ _ HN); f_equal; ring.
Qed.
(** When the slope has an expectation, the average over any paths that avoid one draw has a slope, and over independent draws its expectation is the same. *)
Theorem C92_average N n pay x s : normal_law N n -> expected_slope n (fun y z => pay y [z]) x s -> exists z0 d,
  (forall l, List.Forall (fun zs => exists z, zs = [z] /\ z <> z0) l -> derivable_pt_lim (fun y => average (pay y) l) x (average d l)) /\
  forall paths, (0 < paths)%nat -> simulated n 1 paths (average d) s.
Proof.
  intros HN (z0 & d & Hd & Hm). exists z0, (fun zs => match zs with z :: _ => d z | [] => 0 end). split.
  - intros l Hl. unfold average. set (q := INR (List.length l)). clearbody q.
    assert (T : derivable_pt_lim (fun y => total (pay y) l) x (total (fun zs => match zs with z :: _ => d z | [] => 0 end) l)).
    { induction Hl as [|zs l (z & -> & Hz) Hl IH]; [exact (derivable_pt_lim_const 0 x)|]. rewrite total_cons. cbn match.
      pose proof (derivable_pt_lim_plus (fun y => pay y [z]) (fun y => total (pay y) l) x (d z) _ (Hd z Hz) IH) as D. apply is_derive_Reals in D. apply is_derive_Reals. eapply is_derive_ext; [|exact D].
      intros y. cbv beta. symmetry. unfold plus_fct. apply total_cons. }
    apply (derivable_pt_lim_scal _ (/ q)) in T. apply is_derive_Reals in T. apply is_derive_Reals. unfold Rdiv. rewrite Rmult_comm. eapply is_derive_ext; [|exact T]. intros y. cbv beta. unfold mult_real_fct. apply Rmult_comm.
  - intros paths Hp. apply (C89_unbiased N n); [exact HN|exact Hp|]. apply rep_first; exact Hm.
Qed.
Print Assumptions C92_black.
Print Assumptions C92_bachelier.
Print Assumptions C92_average.
Lemma slope_chain n P g pay x s c A : expected_slope n P (g x) s -> derivable_pt_lim g x c -> (forall y z, pay y z = A * P (g y) z) -> expected_slope n pay x (A * (s * c)).
Proof.
  intros (z0 & d & Hd & Hm) Hg E. exists z0, (fun z => A * (d z * c)). split.
  - intros z Hz. specialize (Hd z Hz). pose proof (derivable_pt_lim_comp g (fun y => P y z) x c (d z) Hg Hd) as D. apply (derivable_pt_lim_scal _ A) in D. apply is_derive_Reals in D. apply is_derive_Reals.
    eapply is_derive_ext; [|exact D]. intros y. cbv beta. unfold mult_real_fct, comp. symmetry. apply E.
  - replace (A * (s * c)) with (A * c * s + 0 * s) by ring. eapply mean_ext; [|exact (mean_lin n d d s s (A * c) 0 Hm Hm)]. intros z. cbv beta. ring.
Qed.
Section European.
Variables (f_log f_sqrt f_exp : R -> R) (f_pow : R -> R -> R).
Local Notation RN := (RNum f_log f_sqrt f_exp f_pow).
#[local] Hint Extern 0 Num => exact (RNum f_log f_sqrt f_exp f_pow) : typeclass_instances.
Local Notation european := (european f_log f_sqrt f_exp f_pow).
Local Notation bs_path := (bs_path f_log f_sqrt f_exp f_pow).
(** The slopes, in the spot and in the volatility of the model, of what a call or a put pays on the path of a draw have for their expectations the
    formula's discounted delta and vega: per unit of spot, and per unit of annual volatility. *)
Theorem C92_european N n m T k t : normal_law N n -> 0 < BsModel.b_spot m -> 0 < T -> 0 < k -> t = Call \/ t = Put -> 0 < BsModel.b_vol m ->
  exists delta vega, black_greeks N n (forward m T) (BsModel.b_vol m * sqrt T) k t = Ok (Some (delta, vega)) /\ let discount := exp (- (BsModel.b_rate m * T)) in
    expected_slope n (fun s z => final [] (european t k) (lit "pay") (bs_path (with_spot m s) [T] [z])) (BsModel.b_spot m) (discount * (delta * (forward m T / BsModel.b_spot m))) /\
    expected_slope n (fun v z => final [] (european t k) (lit "pay") (bs_path (with_vol m v) [T] [z])) (BsModel.b_vol m) (discount * (vega * sqrt T)).
Proof.
  intros HN Hs HT Hk Ht Hv. assert (Hf : 0 < forward m T) by (unfold forward; apply Rmult_lt_0_compat; [exact Hs|apply exp_pos]).
  assert (Hw : 0 < BsModel.b_vol m * sqrt T) by (apply Rmult_lt_0_compat; [exact Hv|now apply sqrt_lt_R0]).
  destruct (C92_black N n (forward m T) (BsModel.b_vol m * sqrt T) k t HN Hf Hk Hw) as (delta & vega & pay & E & Hp & Hd & Hg); [destruct Ht as [->| ->]; discriminate|].
  exists delta, vega. split; [exact E|]. cbv zeta. split.
  - apply (slope_chain n (fun x z => pay x (BsModel.b_vol m * sqrt T) z) (fun s => forward (with_spot m s) T)).
    + exact Hd.
    + unfold forward. cbn [with_spot BsModel.b_spot BsModel.b_rate BsModel.b_div]. eapply rate_value; [apply derivable_pt_lim_mult; [apply derivable_pt_lim_id|apply derivable_pt_lim_const]|]. cbv beta. unfold id. field. lra.
    + intros s z. exact (european_pays f_log f_sqrt f_exp f_pow (with_spot m s) T k t z _ HT Ht (Hp _ _ z)).
  - apply (slope_chain n (fun y z => pay (forward m T) y z) (fun v => v * sqrt T)).
    + exact Hg.
    + eapply rate_value; [apply derivable_pt_lim_mult; [apply derivable_pt_lim_id|apply derivable_pt_lim_const]|]. cbv beta. unfold id. ring.
    + intros v z. exact (european_pays f_log f_sqrt f_exp f_pow (with_vol m v) T k t z _ HT Ht (Hp _ _ z)).
Qed.
(** The sensitivity of the simulated value, at given draws that avoid two numbers, is an average of which the formula's is the expectation,
    however many paths there are. *)
Theorem C92_simulated N n m T k t : normal_law N n -> 0 < BsModel.b_spot m -> 0 < T -> 0 < k -> t = Call \/ t = Put -> 0 < BsModel.b_vol m ->
  let value := fun m l => average (fun zs => final [] (european t k) (lit "pay") (bs_path m [T] zs)) l in
  exists delta vega z0 z1 d g, black_greeks N n (forward m T) (BsModel.b_vol m * sqrt T) k t = Ok (Some (delta, vega)) /\
    (forall l, List.Forall (fun zs => exists z, zs = [z] /\ z <> z0 /\ z <> z1) l ->
       derivable_pt_lim (fun s => value (with_spot m s) l) (BsModel.b_spot m) (average d l) /\ derivable_pt_lim (fun v => value (with_vol m v) l) (BsModel.b_vol m) (average g l)) /\
    let discount := exp (- (BsModel.b_rate m * T)) in
    forall paths, (0 < paths)%nat -> simulated n 1 paths (average d) (discount * (delta * (forward m T / BsModel.b_spot m))) /\ simulated n 1 paths (average g) (discount * (vega * sqrt T)).
Proof.
  intros HN Hs HT Hk Ht Hv value. destruct (C92_european N n m T k t HN Hs HT Hk Ht Hv) as (delta & vega & E & Hd & Hg). cbv zeta in Hd, Hg.
  destruct (C92_average N n (fun s zs => final [] (european t k) (lit "pay") (bs_path (with_spot m s) [T] zs)) _ _ HN Hd) as (z0 & d & D1 & D2).
  destruct (C92_average N n (fun v zs => final [] (european t k) (lit "pay") (bs_path (with_vol m v) [T] zs)) _ _ HN Hg) as (z1 & g & G1 & G2).
  exists delta, vega, z0, z1, d, g. split; [exact E|]. split; [|cbv zeta; intros paths Hp; split; [now apply D2|now apply G2]].
  intros l Hl. split; [apply D1|apply G1]; (eapply Forall_impl; [|exact Hl]); intros zs (z & -> & A & B); exists z; auto.
Qed.
End European.
Print Assumptions C92_european.
Print Assumptions C92_simulated.
(** a year, 20 per cent, strike 110 *)
Example C92_case : (exists N n, normal_law N n) /\ 0 < BsModel.b_spot p_model /\ 0 < BsModel.b_vol p_model /\
  List.Forall (fun zs : list R => exists z, zs = [z] /\ z <> 0 /\ z <> 1) [[2]; [-1]; [1 / 2]].
Proof.
  split; [apply normal_law_exists|]. cbn. split; [lra|]. split; [lra|]. repeat apply Forall_cons; [| | |constructor]; eexists; (split; [reflexivity|split; lra]).
Qed.

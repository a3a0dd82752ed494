(** C230-C232: widths in floating-point arithmetic. *)
From Coq Require Import Reals Lra.
From Flocq Require Import Core Relative Mult_error.
From Verif Require Import Prelude PeakFuncs FloatWidth.
Open Scope R_scope.

(** *** Rounding *)
#[local] Instance prec_ok : Prec_gt_0 53 := eq_refl.
#[local] Instance fexp_ok : Valid_exp fexp64 := FLT_exp_valid (-1074) 53.
#[local] Instance mono_ok : Monotone_exp fexp64 := FLT_exp_monotone (-1074) 53.
Definition u : R := bpow radix2 (-53).
Lemma u_val : u = / 9007199254740992. Proof. unfold u. cbn. reflexivity. Qed.
Lemma rnd_le x y : x <= y -> rnd x <= rnd y. Proof. apply round_le; typeclasses eauto. Qed.
Lemma rnd_float x : is_float (rnd x). Proof. apply generic_format_round; typeclasses eauto. Qed.
Lemma rnd_id x : is_float x -> rnd x = x. Proof. apply round_generic. typeclasses eauto. Qed.
Lemma is_bpow e : (-1074 <= e)%Z -> is_float (bpow radix2 e).
Proof. intros H. apply generic_format_bpow. unfold fexp64, FLT_exp. lia. Qed.
Lemma is_0 : is_float 0. Proof. apply generic_format_0. Qed.
Lemma is_1 : is_float 1. Proof. change 1 with (bpow radix2 0). apply is_bpow. lia. Qed.
Lemma is_2 : is_float 2. Proof. change 2 with (bpow radix2 1). apply is_bpow. lia. Qed.
Lemma is_m1 : is_float (-1). Proof. apply generic_format_opp. exact is_1. Qed.
Lemma rnd_0 : rnd 0 = 0. Proof. apply rnd_id, is_0. Qed.
Lemma rnd_pos x : 0 <= x -> 0 <= rnd x. Proof. intros H. rewrite <- rnd_0. now apply rnd_le. Qed.
Lemma rnd_up x b : is_float b -> x <= b -> rnd x <= b. Proof. intros F H. rewrite <- (rnd_id b F). now apply rnd_le. Qed.
Lemma rnd_down x b : is_float b -> b <= x -> b <= rnd x. Proof. intros F H. rewrite <- (rnd_id b F). now apply rnd_le. Qed.
Lemma double_float x : is_float x -> is_float (2 * x).
Proof. intros F. rewrite Rmult_comm. change 2 with (bpow radix2 1). now apply mult_bpow_pos_exact_FLT. Qed.
(** Absolute error by magnitude. *)
Lemma rnd_error x e : (-1000 <= e)%Z -> Rabs x <= bpow radix2 e -> Rabs (rnd x - x) <= bpow radix2 (e - 53).
Proof.
  intros E H. eapply Rle_trans; [apply error_le_half_ulp; typeclasses eauto|].
  assert (U : ulp radix2 fexp64 x <= bpow radix2 (e + 1 - 53)).
  { eapply Rle_trans; [apply (ulp_le radix2 fexp64 x (bpow radix2 e))|].
    - rewrite (Rabs_right (bpow radix2 e)) by (apply Rle_ge, bpow_ge_0). exact H.
    - rewrite ulp_bpow. unfold fexp64, FLT_exp. rewrite Z.max_l by lia. apply bpow_le. lia. }
  replace (bpow radix2 (e - 53)) with (/ 2 * bpow radix2 (e + 1 - 53)); [lra|].
  replace (e + 1 - 53)%Z with (1 + (e - 53))%Z by lia. rewrite bpow_plus. change (bpow radix2 1) with 2. lra.
Qed.
Lemma rnd_error1 x : Rabs x <= 1 -> Rabs (rnd x - x) <= u.
Proof. intros H. apply (rnd_error x 0); [lia|exact H]. Qed.
Lemma rnd_error2 x : Rabs x <= 2 -> Rabs (rnd x - x) <= 2 * u.
Proof. intros H. replace (2 * u) with (bpow radix2 (1 - 53)); [apply rnd_error; [lia|exact H]|]. unfold u. change (1 - 53)%Z with (1 + (-53))%Z. now rewrite bpow_plus. Qed.
(** Relative error of normal numbers. *)
Lemma rnd_rel x : bpow radix2 (-1022) <= Rabs x -> Rabs (rnd x - x) <= u * Rabs x.
Proof.
  intros H. eapply Rle_trans; [apply relative_error_N_FLT; [lia|exact H]|]. apply Req_le. unfold u.
  change (- (53) + 1)%Z with (1 + -53)%Z. rewrite bpow_plus. change (bpow radix2 1) with 2. lra.
Qed.
(** Absolute error below a normal number. *)
Lemma rnd_below x b : bpow radix2 (-1022) <= b -> Rabs x <= b -> Rabs (rnd x - x) <= u * b.
Proof.
  intros B H. eapply Rle_trans; [apply error_le_half_ulp; typeclasses eauto|].
  assert (P : 0 < b) by (eapply Rlt_le_trans; [apply bpow_gt_0|exact B]).
  assert (U : ulp radix2 fexp64 x <= b * bpow radix2 (1 - 53)).
  { eapply Rle_trans; [apply (ulp_le radix2 fexp64 x b); rewrite (Rabs_right b); lra|].
    rewrite <- (Rabs_right b) at 2 by lra. apply ulp_FLT_le. rewrite Rabs_right by lra. exact B. }
  change (1 - 53)%Z with (1 + -53)%Z in U. rewrite bpow_plus in U. change (bpow radix2 1) with 2 in U. fold u in U. lra.
Qed.

(** *** Squares *)
Lemma sq_float x : is_float (sq x). Proof. apply rnd_float. Qed.
Lemma sq_le a b : 0 <= a <= b -> sq a <= sq b.
Proof. intros H. apply rnd_le. apply Rmult_le_compat; lra. Qed.
Lemma sq_pos a : 0 <= sq a.
Proof. apply rnd_pos. apply Rle_0_sqr. Qed.
Definition tame (W : R) : Prop := is_float W /\ bpow radix2 (-400) <= W.
Lemma tame_sq W : tame W -> bpow radix2 (-800) <= W * W /\ bpow radix2 (-800) <= sq W.
Proof.
  intros [F H]. assert (A : bpow radix2 (-800) <= W * W).
  { change (-800)%Z with (-400 + -400)%Z. rewrite bpow_plus. pose proof (bpow_ge_0 radix2 (-400)). apply Rmult_le_compat; lra. }
  split; [exact A|]. apply rnd_down; [apply is_bpow; lia|exact A].
Qed.
Lemma tame_pos W : tame W -> 0 < W.
Proof. intros [_ H]. eapply Rlt_le_trans; [apply bpow_gt_0|exact H]. Qed.
Lemma tame_sq_pos W : tame W -> 0 < sq W.
Proof. intros H. eapply Rlt_le_trans; [apply bpow_gt_0|apply (tame_sq W H)]. Qed.
Lemma small_bpow e : (e <= -800)%Z -> forall x, bpow radix2 (-800) <= x -> bpow radix2 e <= x.
Proof. intros E x H. eapply Rle_trans; [apply bpow_le; exact E|exact H]. Qed.
(** The square root of the rounded square does not exceed the number. *)
Lemma sqrt_sq W : tame W -> rnd (sqrt (sq W)) <= W.
Proof.
  intros T. pose proof (tame_pos W T) as P. destruct (tame_sq W T) as [A _]. destruct T as [F H].
  assert (N : bpow radix2 (-1022) <= W * W) by (apply small_bpow; [lia|exact A]).
  assert (E : sq W <= W * W * (1 + u)).
  { pose proof (rnd_rel (W * W)) as R. rewrite Rabs_right in R by (apply Rle_ge; nra). specialize (R N). apply Rabs_le_inv in R. unfold sq. lra. }
  assert (U : 0 < u) by apply bpow_gt_0.
  apply round_N_le_midp; [exact fexp_ok|exact F|]. rewrite succ_eq_pos by lra.
  assert (UL : W * u < ulp radix2 fexp64 W).
  { rewrite ulp_neq_0 by lra. unfold cexp, fexp64, FLT_exp.
    assert (M : (-399 <= mag radix2 W)%Z).
    { assert (L : (-400 < mag radix2 W)%Z) by (apply mag_gt_bpow; rewrite Rabs_right by lra; exact H). lia. }
    rewrite Z.max_l by lia. unfold Zminus. rewrite bpow_plus. fold u. apply Rmult_lt_compat_r; [exact U|].
    eapply Rle_lt_trans; [apply Rle_abs|]. apply bpow_mag_gt. }
  assert (S : sqrt (sq W) <= W * (1 + u / 2)).
  { rewrite <- (sqrt_pow2 (W * (1 + u / 2))) by nra. apply sqrt_le_1_alt. nra. }
  lra.
Qed.

Section Width.
Variables (asin_f sin_f : R -> R) (W s2f : R).
Hypothesis tameW : tame W.
Lemma asin_arg_range w : 0 <= w <= W -> -1 <= asin_arg W w <= 1.
Proof using tameW.
  intros Hw. pose proof (tame_sq_pos W tameW) as P. pose proof (sq_pos w) as Q. pose proof (sq_le w W Hw) as L. unfold asin_arg.
  assert (D : 0 <= rnd (rnd (2 * sq w) / sq W) <= 2).
  { rewrite (rnd_id (2 * sq w)) by (apply double_float, sq_float). split.
    - apply rnd_pos. apply Rmult_le_pos; [lra|]. apply Rlt_le, Rinv_0_lt_compat, P.
    - apply rnd_up; [exact is_2|]. apply Rmult_le_reg_r with (sq W); [exact P|]. unfold Rdiv. rewrite Rmult_assoc, Rinv_l by lra. lra. }
  split; [apply rnd_down; [exact is_m1|lra]|apply rnd_up; [exact is_1|lra]].
Qed.
Lemma to_internal_ok w : 0 <= w <= W -> to_internal asin_f W w = Ok (Some (asin_f (asin_arg W w))).
Proof using tameW.
  intros Hw. pose proof (tame_sq_pos W tameW) as P. pose proof (asin_arg_range w Hw) as A. unfold to_internal.
  destruct (Rlt_dec W w); [lra|]. destruct (Req_EM_T (sq W) 0); [lra|]. destruct (Rlt_dec _ (-1)); [lra|]. destruct (Rlt_dec 1 _); [lra|]. reflexivity.
Qed.
Lemma fwhm_range q : -1 <= sin_f q <= 1 -> exists w, fwhm_of sin_f W q = Some w /\ is_float w /\ 0 <= w <= W.
Proof using tameW.
  intros S. pose proof (tame_sq_pos W tameW) as P. unfold fwhm_of.
  assert (A : 0 <= rnd (sin_f q + 1) <= 2) by (split; [apply rnd_pos; lra|apply rnd_up; [exact is_2|lra]]).
  assert (B : 0 <= rnd (1 / 2 * rnd (sin_f q + 1)) <= 1) by (split; [apply rnd_pos; lra|apply rnd_up; [exact is_1|lra]]).
  assert (C : 0 <= rnd (rnd (1 / 2 * rnd (sin_f q + 1)) * sq W) <= sq W).
  { split; [apply rnd_pos, Rmult_le_pos; lra|]. apply rnd_up; [apply sq_float|]. rewrite <- (Rmult_1_l (sq W)) at 2. apply Rmult_le_compat_r; lra. }
  set (p := rnd (rnd (1 / 2 * rnd (sin_f q + 1)) * sq W)) in *. destruct (Rlt_dec p 0); [lra|]. eexists. split; [reflexivity|]. split; [apply rnd_float|]. split.
  - apply rnd_pos, sqrt_pos.
  - eapply Rle_trans; [|apply (sqrt_sq W tameW)]. apply rnd_le. apply sqrt_le_1_alt. lra.
Qed.

End Width.

(** Whatever arcsin returns, and however inaccurate sin is (it must return numbers between -1
    and 1), for every maximal width that is a float of at least 2^-400: a width that is a
    float between 0 and the maximum is converted to the internal format without NaN and
    without an error; every internal width parameter is converted to a float between 0 and
    the maximal width, so that this width is accepted again.  Only larger widths are
    refused. *)
Theorem C230_conversion_of_widths :
  forall asin_f sin_f W, tame W -> (forall q, -1 <= sin_f q <= 1) ->
  (forall w, 0 <= w <= W -> exists s, -1 <= s <= 1 /\ to_internal asin_f W w = Ok (Some (asin_f s))) /\
  (forall w, W < w -> to_internal asin_f W w = Err TransformError) /\
  (forall q, exists w, to_pwa sin_f W q = Some w /\ is_float w /\ 0 <= w <= W /\
     exists q', to_internal asin_f W w = Ok (Some q')).
Proof.
  intros asin_f sin_f W T S. split; [|split].
  - intros w Hw. exists (asin_arg W w). split; [now apply asin_arg_range|now apply to_internal_ok].
  - intros w Hw. unfold to_internal. destruct (Rlt_dec W w); [reflexivity|lra].
  - intros q. destruct (fwhm_range sin_f W T (fold_width q) (S _)) as (w & E & F & R). exists w. split; [exact E|]. split; [exact F|]. split; [exact R|].
    eexists. now apply to_internal_ok.
Qed.
Print Assumptions C230_conversion_of_widths.

(** ** C231 *)
Lemma sin_small x : Rabs (sin x) <= Rabs x.
Proof.
  assert (P : forall x, 0 <= x -> Rabs (sin x) <= x).
  { clear x. intros x H. destruct (Rle_dec x 1) as [L|L].
    - destruct H as [H|H]; [|subst; rewrite sin_0, Rabs_R0; lra]. pose proof (sin_lt_x x H). pose proof PI2_3_2. 
      assert (0 <= sin x) by (apply sin_ge_0; lra). rewrite Rabs_right; lra.
    - pose proof (SIN_bound x). apply Rabs_le. lra. }
  destruct (Rle_dec 0 x) as [L|L]; [rewrite (Rabs_right x) by lra; now apply P|].
  rewrite <- (Rabs_Ropp x), <- (Rabs_Ropp (sin x)), <- sin_neg. rewrite (Rabs_right (- x)) by lra. apply P. lra.
Qed.
Lemma sin_lipschitz a b : Rabs (sin a - sin b) <= Rabs (a - b).
Proof.
  rewrite form4. rewrite !Rabs_mult. rewrite (Rabs_right 2) by lra.
  pose proof (sin_small ((a - b) / 2)) as S. assert (C : Rabs (cos ((a + b) / 2)) <= 1) by (apply Rabs_le; pose proof (COS_bound ((a + b) / 2)); lra).
  replace (Rabs ((a - b) / 2)) with (Rabs (a - b) / 2) in S by (unfold Rdiv; rewrite Rabs_mult, (Rabs_right (/ 2)) by lra; reflexivity).
  pose proof (Rabs_pos (sin ((a - b) / 2))). pose proof (Rabs_pos (cos ((a + b) / 2))). nra.
Qed.
Lemma u_small : 0 < u < 1 / 1000000. Proof. rewrite u_val. split; lra. Qed.
Lemma pi_close : Rabs (pi_f - PI) <= 4 * u.
Proof.
  unfold pi_f. replace (4 * u) with (bpow radix2 (2 - 53)) by (change (2 - 53)%Z with (2 + -53)%Z; rewrite bpow_plus; fold u; change (bpow radix2 2) with 4; reflexivity).
  apply rnd_error; [lia|]. change (bpow radix2 2) with 4. pose proof PI_4. pose proof PI_RGT_0. rewrite Rabs_right; lra.
Qed.
Lemma rnd_error8 x : Rabs x <= 8 -> Rabs (rnd x - x) <= 8 * u.
Proof. intros H. replace (8 * u) with (bpow radix2 (3 - 53)); [apply rnd_error; [lia|exact H]|]. change (3 - 53)%Z with (3 + -53)%Z. rewrite bpow_plus. fold u. reflexivity. Qed.
Lemma fold_sin q : is_float q -> Rabs q <= PI / 2 + 1 / 100 -> Rabs (sin (fold_width q) - sin q) <= 12 * u.
Proof.
  intros F Q. pose proof u_small as U. pose proof pi_close as PC. pose proof PI2_3_2 as P3. pose proof PI_4 as P4. apply Rabs_le_inv in Q, PC.
  assert (Z8 : Rabs (rnd (q + pi_f / 2) - (q + pi_f / 2)) <= 8 * u) by (apply rnd_error8, Rabs_le; lra). apply Rabs_le_inv in Z8.
  unfold fold_width. set (z := rnd (q + pi_f / 2)) in *.
  assert (D : -1 / 2 <= z / pi_f <= 3 / 2).
  { split; apply Rmult_le_reg_r with pi_f; try lra; unfold Rdiv at 2; try (unfold Rdiv at 1); rewrite ?Rmult_assoc, ?Rinv_l by lra; lra. }
  assert (V : Rabs (rnd (z / pi_f) - z / pi_f) <= 2 * u) by (apply rnd_error2, Rabs_le; lra). apply Rabs_le_inv in V.
  set (v := rnd (z / pi_f)) in *. set (n := Zfloor v).
  assert (N : (n = -1 \/ n = 0 \/ n = 1)%Z).
  { pose proof (Zfloor_lb v) as L1. pose proof (Zfloor_ub v) as L2. fold n in L1, L2.
    assert (-2 < IZR n) by lra. assert (IZR n < 2) by lra. apply lt_IZR in H, H0. lia. }
  destruct N as [N|[N|N]]; rewrite N; cbn [Z.even].
  - replace (pi_f * -1) with (- pi_f) by ring. rewrite (rnd_id (- pi_f)) by (apply generic_format_opp, rnd_float).
    assert (E : Rabs (rnd (- pi_f - q) - (- pi_f - q)) <= 8 * u) by (apply rnd_error8, Rabs_le; lra). apply Rabs_le_inv in E.
    replace (sin q) with (sin (- PI - q)) by (replace (- PI - q) with (- (q + PI)) by ring; rewrite sin_neg, neg_sin; ring).
    eapply Rle_trans; [apply sin_lipschitz|]. apply Rabs_le. lra.
  - rewrite Rmult_0_r, rnd_0, Rminus_0_r, (rnd_id q F). rewrite Rminus_diag_eq by reflexivity. rewrite Rabs_R0. lra.
  - rewrite Rmult_1_r. rewrite (rnd_id pi_f) by apply rnd_float.
    assert (E : Rabs (rnd (pi_f - q) - (pi_f - q)) <= 8 * u) by (apply rnd_error8, Rabs_le; lra). apply Rabs_le_inv in E.
    rewrite <- (sin_PI_x q). eapply Rle_trans; [apply sin_lipschitz|]. apply Rabs_le. lra.
Qed.

(** arcsin and sin of the machine, accurate to [d]. *)
Definition accurate (d : R) (asin_f sin_f : R -> R) : Prop :=
  (forall s, -1 <= s <= 1 -> is_float (asin_f s) /\ Rabs (asin_f s - asin s) <= d) /\
  (forall q, -1 <= sin_f q <= 1 /\ Rabs (sin_f q - sin q) <= d).

(** Pure inequalities of the round trip. *)
Lemma bound_product u d a x : 0 < u -> u < 1 / 1000000 -> 0 <= d <= 1 / 100 -> 0 < x -> a <= (1 + u) * x -> (d + 11 * u) * a <= (d + 11 * u) * x + 1 / 50 * (u * x).
Proof.
  intros U U1 D X A. assert (C : (d + 11 * u) * a <= (d + 11 * u) * ((1 + u) * x)) by (apply Rmult_le_compat_l; lra).
  assert (E : (d + 11 * u) * (u * x) <= 1 / 50 * (u * x)) by (apply Rmult_le_compat_r; [apply Rmult_le_pos; lra|lra]). lra.
Qed.
Lemma bound_square v u r p x : 0 < u -> u < 1 / 1000000 -> 0 <= r -> r * r = p -> 0 <= v -> Rabs (v - r) <= u * r -> p <= (1 + u) * x -> 0 < x -> Rabs (v * v - p) <= 3 * (u * x).
Proof.
  intros U U1 R P V E B X. replace (v * v - p) with ((v - r) * (v + r)) by (rewrite <- P; ring). rewrite Rabs_mult.
  assert (S : Rabs (v + r) <= (2 + u) * r) by (apply Rabs_le_inv in E; rewrite Rabs_right; lra).
  eapply Rle_trans; [apply Rmult_le_compat; [apply Rabs_pos|apply Rabs_pos|exact E|exact S]|].
  replace (u * r * ((2 + u) * r)) with (u * (2 + u) * p) by (rewrite <- P; ring).
  eapply Rle_trans; [apply Rmult_le_compat_l; [apply Rmult_le_pos; lra|exact B]|].
  replace (u * (2 + u) * ((1 + u) * x)) with ((2 + u) * (1 + u) * (u * x)) by ring.
  apply Rmult_le_compat_r; [apply Rmult_le_pos; lra|]. assert (u * u <= 1 / 1000000 * u) by (apply Rmult_le_compat_r; lra). lra.
Qed.
Lemma sqrt_error p : is_float p -> 0 <= p -> Rabs (rnd (sqrt p) - sqrt p) <= u * sqrt p.
Proof.
  intros F [P|P]; [|rewrite <- P, sqrt_0, rnd_0, Rmult_0_r, Rminus_0_r, Rabs_R0; lra].
  rewrite <- (Rabs_right (sqrt p)) at 3 by (apply Rle_ge, sqrt_pos). apply rnd_rel. rewrite Rabs_right by (apply Rle_ge, sqrt_pos).
  assert (L : bpow radix2 (-1074) <= p).
  { destruct (Rlt_dec p (bpow radix2 (-1074))) as [L|L]; [|lra]. exfalso.
    assert (A : (mag radix2 p <= -1074)%Z) by (apply mag_le_bpow; [lra|rewrite Rabs_right by lra; exact L]).
    apply (generic_format_ge_bpow radix2 fexp64 (-1074)) in F; [lra| |exact P]. intros e. unfold fexp64, FLT_exp. lia. }
  apply Rle_trans with (bpow radix2 (-537)); [apply bpow_le; lia|].
  rewrite <- (sqrt_pow2 (bpow radix2 (-537))) by apply bpow_ge_0. apply sqrt_le_1_alt. cbn [pow]. rewrite Rmult_1_r, <- bpow_plus. exact L.
Qed.
Lemma round_trip d asin_f sin_f W w : tame W -> 0 <= d <= 1 / 100 -> accurate d asin_f sin_f -> 0 <= w <= W ->
  exists w', to_pwa sin_f W (asin_f (asin_arg W w)) = Some w' /\ is_float w' /\ 0 <= w' /\ Rabs (w' ^ 2 - w ^ 2) <= (d + 16 * u) * W ^ 2.
Proof.
  intros T D [AA SA] Hw. pose proof u_small as U. pose proof (tame_pos W T) as WP. destruct (tame_sq W T) as [X1 X2].
  pose proof (asin_arg_range W T w Hw) as AR. set (s := asin_arg W w) in *. destruct (AA s AR) as [AF AE]. set (q := asin_f s) in *.
  destruct (SA (fold_width q)) as [SR SE]. set (m := sin_f (fold_width q)) in *.
  pose proof (asin_bound s) as AB. apply Rabs_le_inv in AE, SE.
  assert (FS : Rabs (sin (fold_width q) - sin q) <= 12 * u) by (apply fold_sin; [exact AF|apply Rabs_le; lra]). apply Rabs_le_inv in FS.
  assert (LS : Rabs (sin q - s) <= d).
  { rewrite <- (sin_asin s AR) at 1. eapply Rle_trans; [apply sin_lipschitz|]. apply Rabs_le. lra. } apply Rabs_le_inv in LS.
  (* squares *)
  set (A := sq w). set (B := sq W). set (X := W * W) in *.
  assert (NX : bpow radix2 (-1022) <= X) by (apply small_bpow; [lia|exact X1]).
  assert (NB : bpow radix2 (-1022) <= B) by (apply small_bpow; [lia|exact X2]).
  assert (PX : 0 < X) by (unfold X; apply Rmult_lt_0_compat; lra). assert (PB : 0 < B) by (eapply Rlt_le_trans; [apply bpow_gt_0|exact NB]).
  assert (EA : Rabs (A - w * w) <= u * X) by (apply rnd_below; [exact NX|rewrite Rabs_right by (apply Rle_ge, Rmult_le_pos; lra); unfold X; apply Rmult_le_compat; lra]). apply Rabs_le_inv in EA.
  assert (EB : Rabs (B - X) <= u * X) by (apply rnd_below; [exact NX|rewrite Rabs_right; lra]). apply Rabs_le_inv in EB.
  assert (AB' : 0 <= A <= B) by (split; [apply sq_pos|now apply sq_le]).
  set (t := A / B). assert (TR : 0 <= t <= 1).
  { unfold t. split; [apply Rmult_le_pos; [lra|now apply Rlt_le, Rinv_0_lt_compat]|]. apply Rmult_le_reg_r with B; [exact PB|]. unfold Rdiv. rewrite Rmult_assoc, Rinv_l; lra. }
  assert (AT : A = t * B) by (unfold t; field; lra).
  (* the argument of arcsin *)
  assert (E1 : Rabs (rnd (2 * t) - 2 * t) <= 2 * u) by (apply rnd_error2, Rabs_le; lra). apply Rabs_le_inv in E1.
  assert (R1 : 0 <= rnd (2 * t) <= 2) by (split; [apply rnd_pos; lra|apply rnd_up; [exact is_2|lra]]).
  assert (E2 : Rabs (rnd (rnd (2 * t) - 1) - (rnd (2 * t) - 1)) <= u) by (apply rnd_error1, Rabs_le; lra). apply Rabs_le_inv in E2.
  assert (SD : s = rnd (rnd (2 * t) - 1)).
  { unfold s, asin_arg. fold A B. rewrite (rnd_id (2 * A)) by (apply double_float, sq_float). replace (2 * A / B) with (2 * t) by (unfold t; field; lra). reflexivity. }
  rewrite <- SD in E2.
  (* back *)
  assert (E3 : Rabs (rnd (m + 1) - (m + 1)) <= 2 * u) by (apply rnd_error2, Rabs_le; lra). apply Rabs_le_inv in E3.
  assert (R3 : 0 <= rnd (m + 1) <= 2) by (split; [apply rnd_pos; lra|apply rnd_up; [exact is_2|lra]]).
  set (g := rnd (m + 1)) in *.
  assert (E4 : Rabs (rnd (1 / 2 * g) - 1 / 2 * g) <= u) by (apply rnd_error1, Rabs_le; lra). apply Rabs_le_inv in E4.
  assert (R4 : 0 <= rnd (1 / 2 * g) <= 1) by (split; [apply rnd_pos; lra|apply rnd_up; [exact is_1|lra]]).
  set (h := rnd (1 / 2 * g)) in *.
  assert (HT : Rabs (h - t) <= d + 10 * u) by (apply Rabs_le; lra). apply Rabs_le_inv in HT.
  assert (E5 : Rabs (rnd (h * B) - h * B) <= u * B) by (apply rnd_below; [exact NB|rewrite Rabs_right by (apply Rle_ge, Rmult_le_pos; lra); rewrite <- (Rmult_1_l B) at 2; apply Rmult_le_compat_r; lra]). apply Rabs_le_inv in E5.
  assert (R5 : 0 <= rnd (h * B) <= B) by (split; [apply rnd_pos, Rmult_le_pos; lra|apply rnd_up; [apply sq_float|rewrite <- (Rmult_1_l B) at 2; apply Rmult_le_compat_r; lra]]).
  set (p := rnd (h * B)) in *.
  assert (BX : B <= (1 + u) * X) by lra.
  assert (PE : Rabs (p - w * w) <= (d + 12 * u) * X + 1 / 50 * (u * X)).
  { assert (HB : Rabs ((h - t) * B) <= (d + 10 * u) * B) by (rewrite Rabs_mult, (Rabs_right B) by lra; apply Rmult_le_compat_r; [lra|now apply Rabs_le]). apply Rabs_le_inv in HB.
    assert (P1 : Rabs (p - A) <= (d + 11 * u) * B) by (apply Rabs_le; rewrite AT; lra). apply Rabs_le_inv in P1.
    pose proof (bound_product u d B X (proj1 U) (proj2 U) D PX BX) as P2. apply Rabs_le. lra. }
  apply Rabs_le_inv in PE.
  unfold to_pwa, fwhm_of. fold m. fold g. fold h. fold B. fold p. destruct (Rlt_dec p 0); [lra|]. eexists. split; [reflexivity|]. split; [apply rnd_float|]. split; [apply rnd_pos, sqrt_pos|].
  pose proof (bound_square (rnd (sqrt p)) u (sqrt p) p X (proj1 U) (proj2 U) (sqrt_pos p) (sqrt_sqrt p (proj1 R5)) (rnd_pos _ (sqrt_pos p)) (sqrt_error p (rnd_float _) (proj1 R5))) as E6.
  specialize (E6 ltac:(lra) PX). apply Rabs_le_inv in E6.
  assert (UX : 0 < u * X) by (apply Rmult_lt_0_compat; lra).
  replace (rnd (sqrt p) ^ 2) with (rnd (sqrt p) * rnd (sqrt p)) by ring. replace (w ^ 2) with (w * w) by ring. replace (W ^ 2) with X by (unfold X; ring). apply Rabs_le. lra.
Qed.

(** Converting a width to the internal format and back: if the machine's arcsin and sin are
    within d of the true values (d at most 1/100; about 2^-53 in practice), the square of the
    width that comes back differs from the square of the original by at most
    (d + 16 * 2^-53) times the square of the maximal width, and the width itself by at most
    that divided by the width.  No step returns NaN. *)
Theorem C231_accuracy_of_widths :
  forall d asin_f sin_f W w, tame W -> 0 <= d <= 1 / 100 -> accurate d asin_f sin_f -> 0 <= w <= W ->
  exists q w', to_internal asin_f W w = Ok (Some q) /\ to_pwa sin_f W q = Some w' /\ is_float w' /\ 0 <= w' <= W /\
    Rabs (w' ^ 2 - w ^ 2) <= (d + 16 * u) * W ^ 2 /\
    (0 < w -> Rabs (w' - w) <= (d + 16 * u) * W ^ 2 / w).
Proof.
  intros d asin_f sin_f W w T D A Hw. destruct (round_trip d asin_f sin_f W w T D A Hw) as (w' & E & F & P & B).
  exists (asin_f (asin_arg W w)), w'. split; [now apply to_internal_ok|]. split; [exact E|]. split; [exact F|]. split.
  { destruct (fwhm_range sin_f W T (fold_width (asin_f (asin_arg W w))) (proj1 (proj2 A _))) as (v & E' & _ & R). unfold to_pwa in E. rewrite E' in E. injection E as <-. exact R. }
  split; [exact B|]. intros Hp. apply Rmult_le_reg_r with w; [exact Hp|]. unfold Rdiv. rewrite Rmult_assoc, Rinv_l, Rmult_1_r by lra.
  eapply Rle_trans; [|exact B]. replace (w' ^ 2 - w ^ 2) with ((w' - w) * (w' + w)) by ring. rewrite Rabs_mult.
  apply Rmult_le_compat_l; [apply Rabs_pos|]. rewrite Rabs_right; lra.
Qed.
Print Assumptions C231_accuracy_of_widths.

(** The true arcsin and sin, rounded, are accurate to 2^-52. *)
Lemma rounded_accurate : accurate (2 * u) (fun s => rnd (asin s)) (fun q => rnd (sin q)).
Proof.
  pose proof u_small as U. split.
  - intros s S. split; [apply rnd_float|]. pose proof (asin_bound s) as B. pose proof PI_4. apply rnd_error2, Rabs_le. lra.
  - intros q. pose proof (SIN_bound q) as B. split; [split; [apply rnd_down; [exact is_m1|lra]|apply rnd_up; [exact is_1|lra]]|].
    eapply Rle_trans; [apply rnd_error1, Rabs_le; lra|lra].
Qed.
Example C231_nonvacuous : tame 1 /\ accurate (2 * u) (fun s => rnd (asin s)) (fun q => rnd (sin q)) /\ 0 <= 2 * u <= 1 / 100.
Proof.
  split; [split; [exact is_1|change 1 with (bpow radix2 0); apply bpow_le; lia]|]. split; [exact rounded_accurate|]. pose proof u_small. lra.
Qed.

(** ** C232 *)
Lemma narrow W w : tame W -> 0 <= w <= bpow radix2 (-29) * W -> asin_arg W w = -1.
Proof.
  intros T Hw. destruct (tame_sq W T) as [X1 X2]. pose proof (tame_pos W T) as WP. pose proof u_small as U.
  set (X := W * W) in *. assert (PX : 0 < X) by (unfold X; apply Rmult_lt_0_compat; lra).
  assert (NX : bpow radix2 (-1022) <= X) by (apply small_bpow; [lia|exact X1]).
  assert (EB : Rabs (sq W - X) <= u * X) by (apply rnd_below; [exact NX|rewrite Rabs_right; lra]). apply Rabs_le_inv in EB.
  assert (UX : u * X <= 1 / 1000000 * X) by (apply Rmult_le_compat_r; lra).
  set (B := sq W) in *. assert (PB : 0 < B) by lra.
  assert (WW : w * w <= bpow radix2 (-58) * X).
  { replace (bpow radix2 (-58) * X) with ((bpow radix2 (-29) * W) * (bpow radix2 (-29) * W)); [apply Rmult_le_compat; lra|].
    unfold X. change (-58)%Z with (-29 + -29)%Z. rewrite bpow_plus. ring. }
  assert (NC : bpow radix2 (-1022) <= bpow radix2 (-58) * X).
  { apply Rle_trans with (bpow radix2 (-58) * bpow radix2 (-800)); [rewrite <- bpow_plus; apply bpow_le; lia|]. apply Rmult_le_compat_l; [apply bpow_ge_0|exact X1]. }
  assert (EA : Rabs (sq w - w * w) <= u * (bpow radix2 (-58) * X)).
  { apply rnd_below; [exact NC|]. rewrite Rabs_right by (apply Rle_ge, Rmult_le_pos; lra). exact WW. }
  apply Rabs_le_inv in EA. unfold asin_arg. fold B. rewrite (rnd_id (2 * sq w)) by (apply double_float, sq_float).
  assert (K : 0 < bpow radix2 (-58)) by apply bpow_gt_0.
  set (c := bpow radix2 (-58)) in *. assert (CX : 0 < c * X) by now apply Rmult_lt_0_compat.
  assert (UC : u * (c * X) <= 1 / 1000000 * (c * X)) by (apply Rmult_le_compat_r; lra).
  assert (CB : c * (999 / 1000 * X) <= c * B) by (apply Rmult_le_compat_l; lra).
  assert (Q : rnd (2 * sq w / B) <= bpow radix2 (-56)).
  { apply rnd_up; [apply is_bpow; lia|]. apply Rmult_le_reg_r with B; [exact PB|]. unfold Rdiv. rewrite Rmult_assoc, Rinv_l, Rmult_1_r by lra.
    replace (bpow radix2 (-56)) with (4 * c) by (unfold c; change (-56)%Z with (2 + -58)%Z; rewrite bpow_plus; reflexivity). lra. }
  assert (Q0 : 0 <= rnd (2 * sq w / B)).
  { apply rnd_pos. pose proof (sq_pos w). apply Rmult_le_pos; [lra|now apply Rlt_le, Rinv_0_lt_compat]. }
  apply Rle_antisym; [|apply rnd_down; [exact is_m1|lra]].
  apply round_N_le_midp; [exact fexp_ok|exact is_m1|].
  assert (S : succ radix2 fexp64 (-1) = - (1 - bpow radix2 (-53))).
  { change (-1) with (- (1)). rewrite succ_opp. f_equal. change 1 with (bpow radix2 0) at 1. rewrite pred_bpow. reflexivity. }
  rewrite S. assert (V : bpow radix2 (-53) = 8 * bpow radix2 (-56)) by (change (-53)%Z with (3 + -56)%Z; rewrite bpow_plus; reflexivity).
  pose proof (bpow_gt_0 radix2 (-56)). lra.
Qed.

(** Expectation: a width accepted by the internal format is recovered from it.  Violated:
    every width between 0 and 2^-29 of the maximal width has the same internal value, whatever
    arcsin is; so of two different such widths one does not come back, whatever sin is; and
    with exact values at the ends (arcsin(-1) = q, sin of the folded q = -1) every one of them
    comes back as the width 0, although it was positive. *)
Theorem C232_narrow_widths_refuted :
  forall asin_f sin_f W, tame W ->
  (forall w1 w2, 0 <= w1 <= bpow radix2 (-29) * W -> 0 <= w2 <= bpow radix2 (-29) * W ->
     to_internal asin_f W w1 = to_internal asin_f W w2 /\
     (w1 <> w2 -> ~ (forall w q, w = w1 \/ w = w2 -> to_internal asin_f W w = Ok (Some q) -> to_pwa sin_f W q = Some w))) /\
  (sin_f (fold_width (asin_f (-1))) = -1 ->
     forall w, 0 <= w <= bpow radix2 (-29) * W -> exists q, to_internal asin_f W w = Ok (Some q) /\ to_pwa sin_f W q = Some 0).
Proof.
  intros asin_f sin_f W T. pose proof (tame_pos W T) as P.
  assert (L : bpow radix2 (-29) * W <= W).
  { rewrite <- (Rmult_1_l W) at 2. apply Rmult_le_compat_r; [lra|]. change 1 with (bpow radix2 0). apply bpow_le. lia. }
  assert (I : forall w, 0 <= w <= bpow radix2 (-29) * W -> to_internal asin_f W w = Ok (Some (asin_f (-1)))).
  { intros w Hw. rewrite (to_internal_ok asin_f W T w) by lra. now rewrite (narrow W w T Hw). }
  split.
  - intros w1 w2 H1 H2. split; [now rewrite !I|]. intros D R.
    pose proof (R w1 _ (or_introl eq_refl) (I w1 H1)) as A. pose proof (R w2 _ (or_intror eq_refl) (I w2 H2)) as B. congruence.
  - intros S w Hw. exists (asin_f (-1)). split; [now apply I|]. unfold to_pwa, fwhm_of. rewrite S.
    replace (-1 + 1) with 0 by ring. rewrite rnd_0, Rmult_0_r, rnd_0, Rmult_0_l, rnd_0, sqrt_0, rnd_0. destruct (Rlt_dec 0 0); [lra|reflexivity].
Qed.
Print Assumptions C232_narrow_widths_refuted.
Example C232_nonvacuous : tame 1 /\ 0 <= bpow radix2 (-30) <= bpow radix2 (-29) * 1 /\ is_float (bpow radix2 (-30)) /\ bpow radix2 (-30) <> 0.
Proof.
  split; [apply C231_nonvacuous|]. split; [split; [apply bpow_ge_0|rewrite Rmult_1_r; apply bpow_le; lia]|]. split; [apply is_bpow; lia|].
  pose proof (bpow_gt_0 radix2 (-30)). lra.
Qed.

(** Rounding of one number. *)
Lemma rnd_at x m e : (-1074 <= e)%Z -> bpow radix2 (e + 52) <= x < bpow radix2 (e + 53) -> Rabs (x * bpow radix2 (- e) - IZR m) < / 2 -> rnd x = IZR m * bpow radix2 e.
Proof.
  intros E R N. assert (P : 0 < x) by (eapply Rlt_le_trans; [apply bpow_gt_0|apply R]).
  assert (M : (mag radix2 x : Z) = (e + 53)%Z).
  { apply mag_unique. rewrite Rabs_right by lra. replace (e + 53 - 1)%Z with (e + 52)%Z by lia. exact R. }
  assert (C : cexp radix2 fexp64 x = e) by (unfold cexp; rewrite M; unfold fexp64, FLT_exp; lia).
  unfold rnd, round. unfold scaled_mantissa. rewrite C. rewrite (Znearest_imp _ _ m N). reflexivity.
Qed.
(** 2*np.sqrt(2*np.log(2)) as computed. *)
Definition s2f_value : R := IZR 5302583338662979 * bpow radix2 (-51).
Definition W_value : R := 39 / 32.
Lemma W_float : is_float W_value.
Proof.
  replace W_value with (F2R (Float radix2 39 (-5))) by (unfold W_value, F2R; cbn; lra).
  apply generic_format_F2R. intros _. unfold cexp. 
  assert (M : (mag radix2 (F2R (Float radix2 39 (-5))) : Z) = 1%Z).
  { apply mag_unique. unfold F2R; cbn. rewrite Rabs_right by lra. lra. }
  rewrite M. unfold fexp64, FLT_exp. lia.
Qed.
Lemma W_tame : tame W_value.
Proof.
  split; [exact W_float|]. apply Rle_trans with (bpow radix2 0); [apply bpow_le; lia|]. unfold W_value. cbn. lra.
Qed.
Lemma W_sq : sq W_value = 1521 / 1024.
Proof.
  unfold sq. replace (W_value * W_value) with (F2R (Float radix2 1521 (-10))) by (unfold W_value, F2R; cbn; lra).
  rewrite rnd_id; [unfold F2R; cbn; lra|]. apply generic_format_F2R. intros _. unfold cexp.
  assert (M : (mag radix2 (F2R (Float radix2 1521 (-10))) : Z) = 1%Z).
  { apply mag_unique. unfold F2R; cbn. rewrite Rabs_right by lra. lra. }
  rewrite M. unfold fexp64, FLT_exp. lia.
Qed.
Lemma sigma_value : rnd (W_value / s2f_value) = IZR 4661725262140491 * bpow radix2 (-53).
Proof.
  assert (S : s2f_value = 5302583338662979 / 2251799813685248) by (unfold s2f_value; cbn; lra).
  assert (V : W_value / s2f_value = 39 * 2251799813685248 / (32 * 5302583338662979)) by (unfold W_value; rewrite S; field).
  apply rnd_at; [lia| |]; rewrite V; cbn -[IZR Rdiv Rmult].
  - change (bpow radix2 (-1)) with (/ 2). lra.
  - apply Rabs_lt. lra.
Qed.
Lemma back_value : rnd (rnd (W_value / s2f_value) * s2f_value) = IZR 5488762045857793 * bpow radix2 (-52).
Proof.
  rewrite sigma_value. unfold s2f_value. apply rnd_at; [lia| |]; cbn -[IZR Rdiv Rmult].
  - lra.
  - apply Rabs_lt. lra.
Qed.

(** Expectation: a peak written as mu, sigma, area can be read back.  Violated at the widest
    peak: with maximal width 39/32 (that is 1.21875) a peak of exactly this width has an
    internal form and a sigma, and reading the sigma back is refused with a transformation
    error, because sigma times 2.3548... rounds to a number above the maximal width.  (sin is
    assumed to be 1 at the folded arcsin of 1.) *)
Theorem C232_sigma_refuted :
  forall asin_f sin_f, sin_f (fold_width (asin_f 1)) = 1 ->
  exists q sigma, to_internal asin_f W_value W_value = Ok (Some q) /\ to_pwa sin_f W_value q = Some W_value /\
    to_sigma sin_f W_value s2f_value q = Some sigma /\ from_sigma asin_f W_value s2f_value sigma = Err TransformError.
Proof.
  intros asin_f sin_f S. exists (asin_f 1), (rnd (W_value / s2f_value)).
  assert (A : asin_arg W_value W_value = 1).
  { unfold asin_arg. rewrite W_sq. rewrite (rnd_id (2 * (1521 / 1024))) by (rewrite <- W_sq; apply double_float, sq_float).
    replace (2 * (1521 / 1024) / (1521 / 1024)) with 2 by field. rewrite (rnd_id 2 is_2). replace (2 - 1) with 1 by ring. apply rnd_id, is_1. }
  assert (F : to_pwa sin_f W_value (asin_f 1) = Some W_value).
  { unfold to_pwa, fwhm_of. rewrite S. replace (1 + 1) with 2 by ring. rewrite (rnd_id 2 is_2). replace (1 / 2 * 2) with 1 by field.
    rewrite (rnd_id 1 is_1), Rmult_1_l. rewrite (rnd_id (sq W_value)) by apply sq_float. destruct (Rlt_dec (sq W_value) 0) as [L|_]; [rewrite W_sq in L; lra|].
    f_equal. rewrite W_sq. replace (1521 / 1024) with (W_value * W_value) by (unfold W_value; lra). rewrite sqrt_square by (unfold W_value; lra). apply rnd_id, W_float. }
  split.
  { rewrite (to_internal_ok asin_f W_value W_tame) by (unfold W_value; lra). now rewrite A. }
  split; [exact F|]. split; [unfold to_sigma; now rewrite F|].
  unfold from_sigma, to_internal. rewrite back_value. destruct (Rlt_dec W_value _) as [_|N]; [reflexivity|]. exfalso. apply N. unfold W_value. cbn -[IZR Rdiv Rmult]. lra.
Qed.
Print Assumptions C232_sigma_refuted.

(** Both hypotheses on the ends hold for the true arcsin and sin, rounded. *)
Lemma near_one x : 1 - u / 4 <= x <= 1 -> rnd x = 1.
Proof.
  intros H. apply Rle_antisym; [apply rnd_up; [exact is_1|lra]|]. apply round_N_ge_midp; [exact fexp_ok|exact is_1|].
  assert (P : pred radix2 fexp64 1 = 1 - u) by (change 1 with (bpow radix2 0) at 1; rewrite pred_bpow; reflexivity).
  rewrite P. pose proof u_small. lra.
Qed.
Lemma cos_near d : Rabs d <= 2 * u -> 1 - u / 4 <= cos d <= 1.
Proof.
  intros D. pose proof u_small as U. pose proof (COS_bound d) as B. split; [|lra].
  replace d with (2 * (d / 2)) by field. rewrite cos_2a_sin. pose proof (sin_small (d / 2)) as S.
  assert (H : Rabs (d / 2) <= u) by (unfold Rdiv; rewrite Rabs_mult, (Rabs_right (/ 2)) by lra; lra).
  assert (Q : sin (d / 2) * sin (d / 2) <= u * u).
  { assert (L : Rabs (sin (d / 2)) <= u) by lra. apply Rabs_le_inv in L. apply Rsqr_le_abs_1. rewrite (Rabs_right u) by lra. now apply Rabs_le. }
  assert (u * u <= 1 / 1000000 * u) by (apply Rmult_le_compat_r; lra). lra.
Qed.
Lemma half_float x : is_float x -> bpow radix2 0 <= x -> is_float (x / 2).
Proof.
  intros F L. unfold Rdiv. change (/ 2) with (bpow radix2 (-1)).
  apply mult_bpow_exact_FLT; [exact F|]. assert (M : (0 < mag radix2 x)%Z).
  { apply mag_gt_bpow. rewrite Rabs_right; [exact L|]. apply Rle_ge. eapply Rle_trans; [apply bpow_ge_0|exact L]. } lia.
Qed.
Lemma pi_range : 3 <= pi_f <= 4.
Proof.
  unfold pi_f. pose proof PI2_3_2. pose proof PI_4. split; [apply rnd_down|apply rnd_up]; try lra.
  - change 3 with (IZR 3). replace (IZR 3) with (F2R (Float radix2 3 0)) by (unfold F2R; cbn; lra). apply generic_format_F2R. intros _. unfold cexp.
    assert (M : (mag radix2 (F2R (Float radix2 3 0)) : Z) = 2%Z) by (apply mag_unique; unfold F2R; cbn; rewrite Rabs_right by lra; lra).
    rewrite M. unfold fexp64, FLT_exp. lia.
  - change 4 with (bpow radix2 2). apply is_bpow. lia.
Qed.
Lemma rnd_half_pi : rnd (PI / 2) = pi_f / 2.
Proof.
  unfold pi_f, rnd, round, Rdiv. change (/ 2) with (bpow radix2 (-1)). pose proof PI_RGT_0 as P.
  assert (M : (1 < mag radix2 PI)%Z) by (apply mag_gt_bpow; cbn; rewrite Rabs_right by lra; pose proof PI2_3_2; lra).
  assert (C : cexp radix2 fexp64 (PI * bpow radix2 (-1)) = (cexp radix2 fexp64 PI - 1)%Z).
  { unfold cexp. rewrite mag_mult_bpow by lra. unfold fexp64, FLT_exp. lia. }
  unfold scaled_mantissa. rewrite C. set (e := cexp radix2 fexp64 PI).
  replace (PI * bpow radix2 (-1) * bpow radix2 (- (e - 1))) with (PI * bpow radix2 (- e)).
  - unfold F2R, Zminus. cbn [Fnum Fexp]. rewrite bpow_plus. change (bpow radix2 (- (1))) with (bpow radix2 (-1)). rewrite Rmult_assoc. reflexivity.
  - rewrite Rmult_assoc, <- bpow_plus. f_equal. f_equal. lia.
Qed.
Lemma sin_half_pi_f : rnd (sin (pi_f / 2)) = 1.
Proof.
  apply near_one. replace (pi_f / 2) with (PI / 2 - (PI - pi_f) / 2) by field. rewrite sin_shift. apply cos_near.
  pose proof pi_close as C. rewrite Rabs_minus_sym in C. unfold Rdiv. rewrite Rabs_mult, (Rabs_right (/ 2)) by lra. lra.
Qed.
Example C232_sigma_nonvacuous :
  (fun q => rnd (sin q)) (fold_width ((fun s => rnd (asin s)) 1)) = 1 /\ (fun q => rnd (sin q)) (fold_width ((fun s => rnd (asin s)) (-1))) = -1.
Proof.
  cbv beta. pose proof pi_range as P. rewrite asin_1, rnd_half_pi.
  assert (M : rnd (asin (-1)) = - (pi_f / 2)).
  { replace (-1) with (- (1)) by ring. rewrite asin_opp, asin_1. unfold rnd. rewrite round_NE_opp. fold (rnd (PI / 2)). now rewrite rnd_half_pi. }
  rewrite M. split.
  - unfold fold_width. replace (pi_f / 2 + pi_f / 2) with pi_f by field. rewrite (rnd_id pi_f) by apply rnd_float.
    replace (pi_f / pi_f) with 1 by (field; lra). rewrite (rnd_id 1 is_1). rewrite (Zfloor_IZR 1). cbn [Z.even]. rewrite Rmult_1_r, (rnd_id pi_f) by apply rnd_float.
    replace (pi_f - pi_f / 2) with (pi_f / 2) by field. rewrite (rnd_id (pi_f / 2)); [apply sin_half_pi_f|]. rewrite <- rnd_half_pi. apply rnd_float.
  - unfold fold_width. replace (- (pi_f / 2) + pi_f / 2) with 0 by field. rewrite rnd_0. replace (0 / pi_f) with 0 by (field; lra). rewrite rnd_0. rewrite (Zfloor_IZR 0). cbn [Z.even].
    rewrite Rmult_0_r, rnd_0, Rminus_0_r. rewrite (rnd_id (- (pi_f / 2))); [|apply generic_format_opp; rewrite <- rnd_half_pi; apply rnd_float].
    rewrite sin_neg. unfold rnd. rewrite round_NE_opp. fold (rnd (sin (pi_f / 2))). now rewrite sin_half_pi_f.
Qed.

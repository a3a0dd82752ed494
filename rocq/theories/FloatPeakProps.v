(** C238, C239: values of peaks in floating-point arithmetic. *)
From Coq Require Import Reals Lra.
From Flocq Require Import Core.
From Verif Require Import Prelude PeakFuncs FloatWidth FloatWidthProps.
From Verif Require Import FloatPeak.
Open Scope R_scope.
#[local] Existing Instance prec_ok.
#[local] Existing Instance fexp_ok.
#[local] Existing Instance mono_ok.

(** np.sin returns doubles between -1 and 1; np.exp is between 0 and 1 for negative numbers
    and not decreasing there; np.log(2) is between 1/2 and 1. *)
Definition good_sin (sin_f : R -> R) : Prop := forall q, is_float (sin_f q) /\ -1 <= sin_f q <= 1.
Definition good_exp (exp_f : R -> R) : Prop :=
  exp_f 0 = 1 /\ (forall x, x <= 0 -> 0 <= exp_f x <= 1) /\ (forall x y, x <= y <= 0 -> exp_f x <= exp_f y).

Section Peak.
Variables (sin_f exp_f : R -> R) (log2 W : R).
Hypothesis GS : good_sin sin_f.
Hypothesis GE : good_exp exp_f.
Hypothesis GL : 1 / 2 <= log2 <= 1.
Hypothesis T : tame W.
Lemma is_bpow_val e : (-1074 <= e)%Z -> rnd (bpow radix2 e) = bpow radix2 e.
Proof. intros H. apply rnd_id. now apply is_bpow. Qed.
Lemma eight_log : 4 <= rnd (8 * log2) <= 8.
Proof using GL.
  split; [apply rnd_down; [change 4 with (bpow radix2 2); apply is_bpow; lia|lra]|apply rnd_up; [change 8 with (bpow radix2 3); apply is_bpow; lia|lra]].
Qed.
Lemma c1_bound : bpow radix2 (-402) <= c1_f log2 W.
Proof using GL T.
  unfold c1_f. pose proof eight_log as L. pose proof pi_range as P. destruct T as [_ TW].
  assert (A : 1 / 4 <= rnd (pi_f / rnd (8 * log2))).
  { apply rnd_down; [replace (1 / 4) with (bpow radix2 (-2)) by (cbn; lra); apply is_bpow; lia|].
    apply Rmult_le_reg_r with (rnd (8 * log2)); [lra|]. unfold Rdiv at 2. rewrite Rmult_assoc, Rinv_l; lra. }
  assert (B : 1 / 2 <= rnd (sqrt (rnd (pi_f / rnd (8 * log2))))).
  { apply rnd_down; [replace (1 / 2) with (bpow radix2 (-1)) by (cbn; lra); apply is_bpow; lia|].
    rewrite <- (sqrt_pow2 (1 / 2)) by lra. apply sqrt_le_1_alt. lra. }
  apply rnd_down; [apply is_bpow; lia|]. change (-402)%Z with (-400 + -2)%Z. rewrite bpow_plus. pose proof (bpow_gt_0 radix2 (-400)) as Q.
  apply Rmult_le_compat; [lra| |exact TW|]; cbn; lra.
Qed.
Lemma c2_bound : bpow radix2 (-803) <= c2_f log2 W.
Proof using GL T.
  unfold c2_f. pose proof eight_log as L. destruct (tame_sq W T) as [_ S]. apply rnd_down; [apply is_bpow; lia|].
  change (-803)%Z with (-800 + -3)%Z. rewrite bpow_plus. unfold Rdiv. pose proof (bpow_gt_0 radix2 (-800)).
  apply Rmult_le_compat; [lra|cbn; lra|exact S|]. replace (bpow radix2 (-3)) with (/ 8) by (cbn; lra). apply Rinv_le_contravar; lra.
Qed.
(** sin + 1 is 0 or at least 2^-53. *)
Lemma width_bound q : -1 < sin_f q -> bpow radix2 (-53) <= rnd (sin_f q + 1) <= 2.
Proof using GS.
  intros H. destruct (GS q) as [F B]. split; [|apply rnd_up; [exact is_2|lra]]. apply rnd_down; [apply is_bpow; lia|].
  assert (S : succ radix2 fexp64 (-1) <= sin_f q) by (apply succ_le_lt; [exact fexp_ok|exact is_m1|exact F|exact H]).
  assert (E : succ radix2 fexp64 (-1) = - (1 - bpow radix2 (-53))).
  { change (-1) with (- (1)). rewrite succ_opp. f_equal. change 1 with (bpow radix2 0) at 1. rewrite pred_bpow. reflexivity. }
  rewrite E in S. lra.
Qed.
Lemma root_bound q : -1 < sin_f q -> bpow radix2 (-27) <= rnd (sqrt (rnd (sin_f q + 1))) <= 2.
Proof using GS.
  intros H. destruct (width_bound q H) as [A B]. split.
  - apply rnd_down; [apply is_bpow; lia|]. rewrite <- (sqrt_pow2 (bpow radix2 (-27))) by apply bpow_ge_0. apply sqrt_le_1_alt.
    eapply Rle_trans; [|exact A]. cbn [pow]. rewrite Rmult_1_r, <- bpow_plus. apply bpow_le. lia.
  - apply rnd_up; [exact is_2|]. rewrite <- (sqrt_pow2 2) by lra. apply sqrt_le_1_alt. lra.
Qed.
(** The two denominators. *)
Definition den1 (q : R) : R := rnd (c1_f log2 W * rnd (sqrt (rnd (sin_f q + 1)))).
Definition den1r (r q : R) : R := rnd (rnd (Rabs r * c1_f log2 W) * rnd (sqrt (rnd (sin_f q + 1)))).
Definition den2 (q : R) : R := rnd (c2_f log2 W * rnd (sin_f q + 1)).
Lemma den1_pos q : -1 < sin_f q -> 0 < den1 q.
Proof using GS GL T.
  intros H. apply Rlt_le_trans with (bpow radix2 (-402 + -27)); [apply bpow_gt_0|]. apply rnd_down; [apply is_bpow; lia|].
  rewrite bpow_plus. apply Rmult_le_compat; [apply bpow_ge_0|apply bpow_ge_0|apply c1_bound|apply root_bound, H].
Qed.
Lemma den1r_pos r q : bpow radix2 (-400) <= Rabs r -> -1 < sin_f q -> 0 < den1r r q.
Proof using GS GL T.
  intros R H. apply Rlt_le_trans with (bpow radix2 (-802 + -27)); [apply bpow_gt_0|]. apply rnd_down; [apply is_bpow; lia|].
  rewrite bpow_plus. apply Rmult_le_compat; [apply bpow_ge_0|apply bpow_ge_0| |apply root_bound, H].
  apply rnd_down; [apply is_bpow; lia|]. change (-802)%Z with (-400 + -402)%Z. rewrite bpow_plus.
  apply Rmult_le_compat; [apply bpow_ge_0|apply bpow_ge_0|exact R|apply c1_bound].
Qed.
Lemma den1r_mono r r' q : Rabs r <= Rabs r' -> den1r r q <= den1r r' q.
Proof using GL T.
  intros H. pose proof c1_bound as C. pose proof (bpow_gt_0 radix2 (-402)) as P. apply rnd_le. apply Rmult_le_compat_r; [apply rnd_pos, sqrt_pos|].
  apply rnd_le. apply Rmult_le_compat_r; lra.
Qed.
Lemma den2_pos q : -1 < sin_f q -> 0 < den2 q.
Proof using GS GL T.
  intros H. apply Rlt_le_trans with (bpow radix2 (-803 + -53)); [apply bpow_gt_0|]. apply rnd_down; [apply is_bpow; lia|].
  rewrite bpow_plus. apply Rmult_le_compat; [apply bpow_ge_0|apply bpow_ge_0|apply c2_bound|apply width_bound, H].
Qed.
Lemma fdiv_pos a b : 0 < b -> fdiv a b = Some (rnd (a / b)).
Proof. intros H. unfold fdiv. destruct (Req_EM_T b 0); [lra|reflexivity]. Qed.
Lemma div_le a b c : a <= b -> 0 < c -> a / c <= b / c.
Proof. intros H C. unfold Rdiv. apply Rmult_le_compat_r; [now apply Rlt_le, Rinv_0_lt_compat|exact H]. Qed.
(** The exponent. *)
Definition expo (pos q r : R) : R := rnd (- sq (rnd (r - pos)) / den2 q).
Lemma expo_neg pos q r : -1 < sin_f q -> expo pos q r <= 0.
Proof using GS GL T.
  intros H. pose proof (den2_pos q H) as D. apply rnd_up; [exact is_0|]. pose proof (sq_pos (rnd (r - pos))) as S.
  replace 0 with (0 / den2 q) by (field; lra). apply div_le; lra.
Qed.
Lemma expo_mono pos q r r' : -1 < sin_f q -> Rabs (r - pos) <= Rabs (r' - pos) -> expo pos q r' <= expo pos q r.
Proof using GS GL T.
  intros H D. apply rnd_le. apply div_le; [|now apply den2_pos]. apply Ropp_le_contravar. apply rnd_le.
  assert (A : Rabs (rnd (r - pos)) <= Rabs (rnd (r' - pos))).
  { unfold rnd. rewrite <- !round_NE_abs by exact fexp_ok. now apply rnd_le. }
  assert (E : forall x, x * x = Rabs x * Rabs x) by (intros x; rewrite <- Rabs_mult; rewrite Rabs_right; [reflexivity|apply Rle_ge, Rle_0_sqr]).
  rewrite (E (rnd (r - pos))), (E (rnd (r' - pos))). pose proof (Rabs_pos (rnd (r - pos))). apply Rmult_le_compat; lra.
Qed.
Lemma expo_zero pos q : expo pos q pos = 0.
Proof. unfold expo. replace (pos - pos) with 0 by ring. rewrite rnd_0. unfold sq. rewrite Rmult_0_l, rnd_0, Ropp_0. unfold Rdiv. rewrite Rmult_0_l. apply rnd_0. Qed.
Lemma gaussian_value pos q a r : -1 < sin_f q ->
  gaussian_f sin_f exp_f log2 W pos q a r = Some (rnd (rnd (Rabs a / den1 q) * exp_f (expo pos q r))).
Proof using GS GL T.
  intros H. unfold gaussian_f, times_exp. fold (den1 q). fold (den2 q). rewrite (fdiv_pos _ (den1 q)) by now apply den1_pos. now rewrite fdiv_pos by now apply den2_pos.
Qed.
Lemma gor_value pos q a r : bpow radix2 (-400) <= Rabs r -> -1 < sin_f q ->
  gaussianoverr_f sin_f exp_f log2 W pos q a r = Some (rnd (rnd (Rabs a / den1r r q) * exp_f (expo pos q r))).
Proof using GS GL T.
  intros R H. unfold gaussianoverr_f, times_exp. fold (den1r r q). fold (den2 q). rewrite (fdiv_pos _ (den1r r q)) by now apply den1r_pos. now rewrite fdiv_pos by now apply den2_pos.
Qed.
Lemma quotient_pos a d : 0 < d -> 0 <= rnd (Rabs a / d).
Proof. intros D. apply rnd_pos. replace 0 with (0 / d) by (field; lra). apply div_le; [apply Rabs_pos|exact D]. Qed.

(** Values of peaks in double precision, for every position, area and point, and every width
    parameter whose sine is not -1: they are nonnegative doubles, never NaN or infinite (for
    GaussianOverR: away from r = 0); a peak with at least as large an area has at least as
    large a value; the value at the position is the largest of all values of a Gaussian; a
    Gaussian is never larger at a point farther from its position; a GaussianOverR right of a
    positive position never rises. *)
Theorem C238_values_in_double_precision :
  forall pos q a, -1 < sin_f q ->
  (forall r, exists v, gaussian_f sin_f exp_f log2 W pos q a r = Some v /\ is_float v /\ 0 <= v /\
     exists m, gaussian_f sin_f exp_f log2 W pos q a pos = Some m /\ v <= m) /\
  (forall r, bpow radix2 (-400) <= Rabs r -> exists v, gaussianoverr_f sin_f exp_f log2 W pos q a r = Some v /\ is_float v /\ 0 <= v) /\
  (forall r r' v v', Rabs (r - pos) <= Rabs (r' - pos) ->
     gaussian_f sin_f exp_f log2 W pos q a r = Some v -> gaussian_f sin_f exp_f log2 W pos q a r' = Some v' -> v' <= v) /\
  (forall r r' v v', 0 < pos -> bpow radix2 (-400) <= r -> pos <= r <= r' ->
     gaussianoverr_f sin_f exp_f log2 W pos q a r = Some v -> gaussianoverr_f sin_f exp_f log2 W pos q a r' = Some v' -> v' <= v) /\
  (forall r b v v', Rabs a <= Rabs b ->
     gaussian_f sin_f exp_f log2 W pos q a r = Some v -> gaussian_f sin_f exp_f log2 W pos q b r = Some v' -> v <= v').
Proof using GS GE GL T.
  intros pos q a H. destruct GE as (E0 & E1 & E2). pose proof (den1_pos q H) as D1.
  assert (MONO : forall r r', Rabs (r - pos) <= Rabs (r' - pos) -> exp_f (expo pos q r') <= exp_f (expo pos q r)).
  { intros r r' L. apply E2. split; [now apply expo_mono|now apply expo_neg]. }
  assert (EP : forall r, 0 <= exp_f (expo pos q r)) by (intros r; apply E1, expo_neg, H).
  split; [|split; [|split; [|split]]].
  - intros r. rewrite (gaussian_value pos q a r H), (gaussian_value pos q a pos H). eexists. split; [reflexivity|]. split; [apply rnd_float|]. split.
    + apply rnd_pos. apply Rmult_le_pos; [now apply quotient_pos|apply EP].
    + eexists. split; [reflexivity|]. apply rnd_le. apply Rmult_le_compat_l; [now apply quotient_pos|]. apply MONO. replace (pos - pos) with 0 by ring. rewrite Rabs_R0. apply Rabs_pos.
  - intros r R. rewrite (gor_value pos q a r R H). eexists. split; [reflexivity|]. split; [apply rnd_float|]. apply rnd_pos. apply Rmult_le_pos; [apply quotient_pos; now apply den1r_pos|apply EP].
  - intros r r' v v' L V V'. rewrite (gaussian_value pos q a r H) in V. rewrite (gaussian_value pos q a r' H) in V'. injection V as <-. injection V' as <-.
    apply rnd_le. apply Rmult_le_compat_l; [now apply quotient_pos|now apply MONO].
  - intros r r' v v' P R L V V'. pose proof (bpow_gt_0 radix2 (-400)) as B.
    rewrite (gor_value pos q a r) in V by (rewrite ?Rabs_right by lra; assumption || exact H). rewrite (gor_value pos q a r') in V' by (rewrite ?Rabs_right by lra; lra || exact H).
    injection V as <-. injection V' as <-. assert (DR : 0 < den1r r q) by (apply den1r_pos; [rewrite Rabs_right by lra; exact R|exact H]).
    assert (DM : den1r r q <= den1r r' q) by (apply den1r_mono; rewrite !Rabs_right by lra; lra).
    apply rnd_le. apply Rmult_le_compat; [apply quotient_pos; lra|apply EP| |].
    + apply rnd_le. unfold Rdiv. apply Rmult_le_compat_l; [apply Rabs_pos|]. apply Rinv_le_contravar; assumption.
    + apply MONO. rewrite !Rabs_right by lra. lra.
  - intros r b v v' L V V'. rewrite (gaussian_value pos q a r H) in V. rewrite (gaussian_value pos q b r H) in V'. injection V as <-. injection V' as <-.
    apply rnd_le. apply Rmult_le_compat_r; [apply EP|]. apply rnd_le. now apply div_le.
Qed.

End Peak.
Print Assumptions C238_values_in_double_precision.
Example C238_nonvacuous :
  good_sin (fun q => rnd (sin q)) /\ good_exp (fun x => rnd (exp x)) /\ 1 / 2 <= rnd (ln 2) <= 1 /\ tame 1 /\ -1 < (fun q => rnd (sin q)) 0.
Proof.
  split.
  { intros q. pose proof (SIN_bound q). split; [apply rnd_float|]. split; [apply rnd_down; [exact is_m1|lra]|apply rnd_up; [exact is_1|lra]]. }
  split.
  { split; [rewrite exp_0; apply rnd_id, is_1|]. split.
    - intros x X. pose proof (exp_pos x). split; [apply rnd_pos; lra|]. apply rnd_up; [exact is_1|].
      rewrite <- exp_0. destruct X as [X|X]; [left; now apply exp_increasing|right; now rewrite X].
    - intros x y [H _]. apply rnd_le. destruct H as [H|H]; [left; now apply exp_increasing|right; now rewrite H]. }
  split.
  { assert (1 / 2 <= ln 2 <= 1).
    { pose proof ln_lt_2. split; [lra|]. rewrite <- (ln_exp 1). apply Rlt_le, ln_increasing; [lra|]. pose proof (exp_ineq1 1 ltac:(lra)). lra. }
    split; [apply rnd_down; [replace (1 / 2) with (bpow radix2 (-1)) by (cbn; lra); apply is_bpow; lia|lra]|apply rnd_up; [exact is_1|lra]]. }
  split; [apply C231_nonvacuous|]. cbv beta. rewrite sin_0, rnd_0. lra.
Qed.

(** Expectation: a peak whose positive width is accepted has a number as its value
    everywhere.  Violated: a Gaussian or GaussianOverR whose width is at most 2^-29 of the
    maximal width gets an internal parameter at which every value is a division by 0, at every
    point and for every position and area (if sin is -1 at arcsin of -1). *)
Theorem C239_narrow_peaks_refuted :
  forall asin_f sin_f exp_f log2 W w, tame W -> sin_f (asin_f (-1)) = -1 -> 0 < w <= bpow radix2 (-29) * W ->
  exists q, to_internal asin_f W w = Ok (Some q) /\
    forall pos a r, gaussian_f sin_f exp_f log2 W pos q a r = None /\ gaussianoverr_f sin_f exp_f log2 W pos q a r = None.
Proof.
  intros asin_f sin_f exp_f log2 W w T S Hw. exists (asin_f (-1)). split.
  { assert (N : asin_arg W w = -1) by (apply narrow; [exact T|lra]).
    rewrite (to_internal_ok asin_f W T w); [now rewrite N|]. pose proof (tame_pos W T) as P.
    assert (L : bpow radix2 (-29) * W <= W).
    { rewrite <- (Rmult_1_l W) at 2. apply Rmult_le_compat_r; [lra|]. change 1 with (bpow radix2 0). apply bpow_le. lia. } lra. }
  intros pos a r. unfold gaussian_f, gaussianoverr_f, times_exp. rewrite S. replace (-1 + 1) with 0 by ring. rewrite rnd_0, sqrt_0, rnd_0, !Rmult_0_r, rnd_0.
  unfold fdiv. destruct (Req_EM_T 0 0); [split; reflexivity|contradiction].
Qed.
Print Assumptions C239_narrow_peaks_refuted.
Example C239_nonvacuous : tame 1 /\ (fun q => rnd (sin q)) ((fun s => rnd (asin s)) (-1)) = -1 /\ 0 < bpow radix2 (-30) <= bpow radix2 (-29) * 1.
Proof.
  split; [apply C231_nonvacuous|]. split; [|split; [apply bpow_gt_0|rewrite Rmult_1_r; apply bpow_le; lia]]. cbv beta.
  replace (-1) with (- (1)) by ring. rewrite asin_opp, asin_1. unfold rnd at 2. rewrite round_NE_opp. fold (rnd (PI / 2)). rewrite rnd_half_pi, sin_neg.
  unfold rnd. rewrite round_NE_opp. fold (rnd (sin (pi_f / 2))). now rewrite sin_half_pi_f.
Qed.

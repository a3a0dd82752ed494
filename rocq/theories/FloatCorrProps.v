(** C247 to C249: uncertainties and correlations in floating-point arithmetic. *)
From Coq Require Import Reals Lra.
From Flocq Require Import Core.
From Verif Require Import Prelude FloatWidth FloatWidthProps FloatEvalProps FloatOrderProps FloatBaseProps FloatCorr.
Open Scope R_scope.
#[local] Existing Instance prec_ok.
#[local] Existing Instance fexp_ok.
#[local] Existing Instance mono_ok.

Lemma near_sqrt v : is_float v -> 0 <= v -> near 1 (sqrt v) (rnd (sqrt v)).
Proof. intros F P. apply near_error; [apply sqrt_pos|]. now apply sqrt_error. Qed.
Lemma sqrt_low v : bpow radix2 (-1000) <= v -> bpow radix2 (-500) <= sqrt v.
Proof.
  intros L. rewrite <- (sqrt_pow2 (bpow radix2 (-500))) by apply bpow_ge_0. apply sqrt_le_1_alt. cbn [pow]. rewrite Rmult_1_r, <- bpow_plus. exact L.
Qed.

(** In double precision an uncertainty is a nonnegative double, never smaller for a larger
    variance, and off by at most a factor of 1 + 2^-51.  The correlation is exactly
    symmetric, 0 for a variance of 0, and never has the wrong sign.  Unless the
    result is subnormal (or a variance is below 2^-1000) it is off by at most a factor of
    1 + 2^-49, and so at most 1 + 2^-49 for a covariance matrix. *)
Theorem C247_correlations_in_double_precision :
  forall vi vj c, is_float vi -> is_float vj -> is_float c -> 0 <= vi -> 0 <= vj ->
  (is_float (uncertainty_f vi) /\ 0 <= uncertainty_f vi /\ (vi <= vj -> uncertainty_f vi <= uncertainty_f vj) /\
   uncertainty_f vi <= sqrt vi * (1 + bpow radix2 (-51)) /\ sqrt vi <= uncertainty_f vi * (1 + bpow radix2 (-51))) /\
  correlation_f vj vi c = correlation_f vi vj c /\
  (vi = 0 \/ vj = 0 -> correlation_f vi vj c = 0) /\
  (0 <= c -> 0 <= correlation_f vi vj c) /\ (c <= 0 -> correlation_f vi vj c <= 0) /\
  (bpow radix2 (-1000) <= vi -> bpow radix2 (-1000) <= vj -> c = 0 \/ bpow radix2 (-1022) <= Rabs (correlation_f vi vj c) ->
     let exact := Rabs (c / (sqrt vi * sqrt vj)) in let tol := 1 + bpow radix2 (-49) in
     Rabs (correlation_f vi vj c) <= exact * tol /\ exact <= Rabs (correlation_f vi vj c) * tol /\
     (c ^ 2 <= vi * vj -> Rabs (correlation_f vi vj c) <= tol)).
Proof.
  intros vi vj c FI FJ FC PI PJ. 
  assert (TOL : forall k, (Z.of_nat k <= 2 ^ 51)%Z -> (1 + 2 * u) ^ k <= 1 + IZR (Z.of_nat k) * bpow radix2 (-51)).
  { intros k K. apply grow_linear. change (bpow radix2 51) with (IZR (2 ^ 51)). now apply IZR_le. }
  pose proof (near_sqrt vi FI PI) as NI. pose proof (near_sqrt vj FJ PJ) as NJ.
  assert (DEN : 0 <= rnd (rnd (sqrt vi) * rnd (sqrt vj))) by (apply rnd_pos, Rmult_le_pos; [apply NI|apply NJ]).
  assert (SGN : forall x y, 0 <= y -> 0 <= x -> 0 <= rnd (x / y)).
  { intros x y Y X. apply rnd_pos. destruct Y as [Y|Y]; [|rewrite <- Y; unfold Rdiv; rewrite Rinv_0; lra]. apply Rmult_le_pos; [exact X|now apply Rlt_le, Rinv_0_lt_compat]. }
  assert (SGN' : forall x y, 0 <= y -> x <= 0 -> rnd (x / y) <= 0).
  { intros x y Y X. apply rnd_up; [apply is_0|]. destruct Y as [Y|Y]; [|rewrite <- Y; unfold Rdiv; rewrite Rinv_0; lra]. pose proof (Rinv_0_lt_compat y Y) as I.
    assert (0 <= - x * / y) by (apply Rmult_le_pos; lra). unfold Rdiv. lra. }
  split; [|split; [|split; [|split; [|split]]]].
  - unfold uncertainty_f. split; [apply rnd_float|]. split; [apply NI|]. split; [intros H; apply rnd_le, sqrt_le_1_alt, H|].
    pose proof (TOL 1%nat ltac:(lia)) as T. change (IZR (Z.of_nat 1)) with 1 in T. rewrite Rmult_1_l in T. destruct NI as (A & B & C & D). split.
    + eapply Rle_trans; [exact D|now apply Rmult_le_compat_l].
    + eapply Rle_trans; [exact C|now apply Rmult_le_compat_l].
  - unfold correlation_f. destruct (Req_EM_T vj 0), (Req_EM_T vi 0); try reflexivity. now rewrite (Rmult_comm (rnd (sqrt vj))).
  - unfold correlation_f. intros [-> | ->]; destruct (Req_EM_T 0 0); try contradiction; try reflexivity. now destruct (Req_EM_T vi 0).
  - intros C. unfold correlation_f. destruct (Req_EM_T vi 0); [lra|]. destruct (Req_EM_T vj 0); [lra|]. now apply SGN.
  - intros C. unfold correlation_f. destruct (Req_EM_T vi 0); [lra|]. destruct (Req_EM_T vj 0); [lra|]. now apply SGN'.
  - intros LI LJ RG exact tol.
    assert (GI : 0 < vi) by (eapply Rlt_le_trans; [apply bpow_gt_0|exact LI]). assert (GJ : 0 < vj) by (eapply Rlt_le_trans; [apply bpow_gt_0|exact LJ]).
    pose proof (sqrt_low vi LI) as QI. pose proof (sqrt_low vj LJ) as QJ. assert (B5 : 0 < bpow radix2 (-500)) by apply bpow_gt_0.
    assert (RI : bpow radix2 (-500) <= rnd (sqrt vi)) by (apply rnd_down; [apply is_bpow; lia|exact QI]).
    assert (RJ : bpow radix2 (-500) <= rnd (sqrt vj)) by (apply rnd_down; [apply is_bpow; lia|exact QJ]).
    set (p := rnd (sqrt vi) * rnd (sqrt vj)) in *. assert (PL : bpow radix2 (-1000) <= p).
    { change (-1000)%Z with (-500 + -500)%Z. rewrite bpow_plus. unfold p. apply Rmult_le_compat; lra. }
    assert (NP : near 3 (sqrt vi * sqrt vj) (rnd p)).
    { apply (near_trans 2 1 _ p); [now apply (near_mult 1 1)|]. apply near_rnd. eapply Rle_trans; [|exact PL]. apply bpow_le. lia. }
    assert (DP : 0 < rnd p) by (apply Rlt_le_trans with (bpow radix2 (-1000)); [apply bpow_gt_0|]; apply rnd_down; [apply is_bpow; lia|exact PL]).
    assert (SP : 0 < sqrt vi * sqrt vj) by (apply Rmult_lt_0_compat; lra).
    unfold correlation_f in RG |- *. destruct (Req_EM_T vi 0); [lra|]. destruct (Req_EM_T vj 0); [lra|]. fold p in RG |- *.
    assert (NQ : near 3 exact (Rabs (c / rnd p))).
    { unfold exact. unfold Rdiv. rewrite !Rabs_mult, (Rabs_right (/ (sqrt vi * sqrt vj))), (Rabs_right (/ rnd p)) by (apply Rle_ge, Rlt_le, Rinv_0_lt_compat; assumption).
      apply (near_mult 0 3); [apply near_refl, Rabs_pos|now apply near_inv]. }
    assert (NR : near 4 exact (Rabs (rnd (c / rnd p)))).
    { apply (near_trans 3 1 _ _ _ NQ). replace (Rabs (rnd (c / rnd p))) with (rnd (Rabs (c / rnd p))) by (unfold rnd; now rewrite round_NE_abs by typeclasses eauto).
      destruct RG as [Z|N].
      - rewrite Z. unfold Rdiv. rewrite Rmult_0_l, Rabs_R0, rnd_0. apply near_refl. lra.
      - destruct (Rle_dec (bpow radix2 (-1022)) (Rabs (c / rnd p))) as [L|L]; [now apply near_rnd|].
        (* rounded up to 2^-1022 *)
        assert (H : rnd (Rabs (c / rnd p)) <= bpow radix2 (-1022)) by (apply rnd_up; [apply is_bpow; lia|lra]).
        replace (Rabs (rnd (c / rnd p))) with (rnd (Rabs (c / rnd p))) in N by (unfold rnd; now rewrite round_NE_abs by typeclasses eauto).
        assert (E : rnd (Rabs (c / rnd p)) = bpow radix2 (-1022)) by lra.
        pose proof (rnd_below (Rabs (c / rnd p)) (bpow radix2 (-1022)) (Rle_refl _) ltac:(rewrite Rabs_Rabsolu; lra)) as W. rewrite E in W |- *.
        apply near_sym, near_error; [apply bpow_ge_0|]. now rewrite Rabs_minus_sym. }
    pose proof (TOL 4%nat ltac:(lia)) as T. replace (1 + IZR (Z.of_nat 4) * bpow radix2 (-51)) with tol in T.
    2:{ unfold tol. change (-49)%Z with (2 + -51)%Z. rewrite bpow_plus. change (bpow radix2 2) with 4. change (IZR (Z.of_nat 4)) with 4. ring. }
    destruct NR as (A & B & C & D).
    assert (X : Rabs (rnd (c / rnd p)) <= exact * tol) by (eapply Rle_trans; [exact D|now apply Rmult_le_compat_l]).
    split; [exact X|]. split; [eapply Rle_trans; [exact C|now apply Rmult_le_compat_l]|].
    intros H. eapply Rle_trans; [exact X|]. rewrite <- (Rmult_1_l tol) at 2. apply Rmult_le_compat_r; [unfold tol; pose proof (bpow_ge_0 radix2 (-49)); lra|].
    unfold exact, Rdiv. rewrite Rabs_mult, (Rabs_right (/ _)) by (apply Rle_ge, Rlt_le, Rinv_0_lt_compat; assumption).
    apply Rmult_le_reg_r with (sqrt vi * sqrt vj); [exact SP|]. rewrite Rmult_assoc, Rinv_l by lra. rewrite Rmult_1_r, Rmult_1_l.
    rewrite <- sqrt_mult by lra. rewrite <- sqrt_Rsqr_abs. apply sqrt_le_1_alt. unfold Rsqr. replace (c * c) with (c ^ 2) by ring. exact H.
Qed.
Print Assumptions C247_correlations_in_double_precision.
Example C247_nonvacuous : is_float 1 /\ bpow radix2 (-1000) <= 1 /\ 1 ^ 2 <= 1 * 1 /\ correlation_f 1 1 1 = 1.
Proof.
  split; [exact is_1|]. split; [change 1 with (bpow radix2 0); apply bpow_le; lia|]. split; [lra|].
  unfold correlation_f. destruct (Req_EM_T 1 0); [lra|]. rewrite sqrt_1, (rnd_id 1 is_1), Rmult_1_l, (rnd_id 1 is_1). replace (1 / 1) with 1 by field. exact (rnd_id 1 is_1).
Qed.

(** *** C248 *)
Lemma rnd_sqrt_3 : rnd (sqrt 3) = 7800463371553962 / 4503599627370496.
Proof.
  set (s := 7800463371553962 / 4503599627370496). assert (W : bpow radix2 (-52) = / 4503599627370496) by reflexivity.
  assert (F : is_float s) by (unfold s, Rdiv; rewrite <- W; apply dyadic; lia).
  assert (L : s <= sqrt 3) by (rewrite <- (sqrt_square s) by (unfold s; lra); apply sqrt_le_1_alt; unfold s; lra).
  set (h := 15600926743107925 / 9007199254740992).
  assert (H : sqrt 3 < h) by (rewrite <- (sqrt_square h) by (unfold h; lra); apply sqrt_lt_1_alt; unfold h; lra).
  apply (pin _ 0); [exact F|lia| |].
  - change (bpow radix2 0) with 1. change (bpow radix2 (0 + 1)) with 2. unfold s. lra.
  - rewrite Rabs_right by lra. change (0 - 52)%Z with (-52)%Z. rewrite W. unfold s, h in *. lra.
Qed.
Lemma rnd_sqrt_3_squared : rnd (rnd (sqrt 3) * rnd (sqrt 3)) = 6755399441055743 / 2251799813685248.
Proof.
  rewrite rnd_sqrt_3. assert (W : bpow radix2 (-51) = / 2251799813685248) by reflexivity.
  apply (pin _ 1); [unfold Rdiv; rewrite <- W; apply dyadic; lia|lia| |].
  - change (bpow radix2 1) with 2. change (bpow radix2 (1 + 1)) with 4. lra.
  - change (1 - 52)%Z with (-51)%Z. rewrite W. apply Rabs_def1; lra.
Qed.
Lemma correlation_above_1 : correlation_f 3 3 3 = 1 + bpow radix2 (-52).
Proof.
  unfold correlation_f. destruct (Req_EM_T 3 0); [lra|]. rewrite rnd_sqrt_3_squared. assert (W : bpow radix2 (-52) = / 4503599627370496) by reflexivity.
  apply (pin _ 0).
  - replace (1 + bpow radix2 (-52)) with (IZR 4503599627370497 * bpow radix2 (-52)) by (rewrite W; lra). apply dyadic; lia.
  - lia.
  - change (bpow radix2 0) with 1. change (bpow radix2 (0 + 1)) with 2. rewrite W. lra.
  - change (0 - 52)%Z with (-52)%Z. rewrite W. replace (3 / (6755399441055743 / 2251799813685248)) with (6755399441055744 / 6755399441055743) by lra. apply Rabs_def1; lra.
Qed.
(** Expectation: a correlation computed from a covariance matrix is between -1 and 1.
    Violated in double precision: of a variable with itself, of variance 3, it is 1 + 2^-52
    (so that 1 - correlation^2 is negative and arccos of it is not a number). *)
Theorem C248_correlation_can_exceed_one :
  (exists v c, is_float v /\ is_float c /\ c ^ 2 <= v * v /\ 1 < correlation_f v v c) /\
  correlation_f 3 3 3 = 1 + bpow radix2 (-52) /\ correlation_f 3 3 (-3) = - (1 + bpow radix2 (-52)) /\ correlation_f 1 1 1 = 1.
Proof.
  assert (F3 : is_float 3) by (replace 3 with (IZR 3 * bpow radix2 0) by (cbn; lra); apply dyadic; lia).
  split; [|split; [exact correlation_above_1|split; [|apply C247_nonvacuous]]].
  - exists 3, 3. repeat split; auto; [lra|]. rewrite correlation_above_1. pose proof (bpow_gt_0 radix2 (-52)). lra.
  - rewrite <- correlation_above_1. unfold correlation_f. destruct (Req_EM_T 3 0); [lra|].
    replace (-3 / rnd (rnd (sqrt 3) * rnd (sqrt 3))) with (- (3 / rnd (rnd (sqrt 3) * rnd (sqrt 3)))) by (unfold Rdiv; ring). unfold rnd at 1. rewrite round_NE_opp. reflexivity.
Qed.
Print Assumptions C248_correlation_can_exceed_one.

(** *** C249 *)
Lemma rnd_scale a x : bpow radix2 (-1022) <= Rabs x -> bpow radix2 (-1022) <= Rabs (x * bpow radix2 a) -> rnd (x * bpow radix2 a) = rnd x * bpow radix2 a.
Proof.
  intros H H'. assert (N : x <> 0) by (intros ->; rewrite Rabs_R0 in H; pose proof (bpow_gt_0 radix2 (-1022)); lra).
  unfold rnd, fexp64. rewrite !(round_FLT_FLX radix2 (-1074) 53) by assumption.
  unfold round, F2R, scaled_mantissa, cexp, FLX_exp. cbn [Fnum Fexp]. rewrite mag_mult_bpow by exact N.
  replace (mag radix2 x + a - 53)%Z with ((mag radix2 x - 53) + a)%Z by ring. rewrite Rmult_assoc, <- bpow_plus.
  replace (a + - (mag radix2 x - 53 + a))%Z with (- (mag radix2 x - 53))%Z by ring. rewrite (bpow_plus radix2 (mag radix2 x - 53) a). ring.
Qed.
Lemma sqrt_scale a v : sqrt (v * bpow radix2 (2 * a)) = sqrt v * bpow radix2 a.
Proof.
  rewrite Rmult_comm, sqrt_mult_alt by apply bpow_ge_0. rewrite Rmult_comm. f_equal. replace (2 * a)%Z with (a + a)%Z by ring. rewrite bpow_plus. apply sqrt_square, bpow_ge_0.
Qed.
(** The quantity [x] measured in a unit [2^a] times smaller: values are multiplied by [2^a],
    variances by [2^(2a)], covariances of two quantities by the product of their factors.
    In double precision such a change of units multiplies the uncertainties by exactly its
    factor and changes no bit of a correlation, as long as no variance is below 2^-1000. *)
Theorem C249_correlations_do_not_depend_on_binary_units :
  forall vi vj c a b, is_float vi -> is_float vj ->
  bpow radix2 (-1000) <= vi -> bpow radix2 (-1000) <= vj ->
  bpow radix2 (-1000) <= vi * bpow radix2 (2 * a) -> bpow radix2 (-1000) <= vj * bpow radix2 (2 * b) ->
  is_float (vi * bpow radix2 (2 * a)) /\
  uncertainty_f (vi * bpow radix2 (2 * a)) = uncertainty_f vi * bpow radix2 a /\
  correlation_f (vi * bpow radix2 (2 * a)) (vj * bpow radix2 (2 * b)) (c * bpow radix2 a * bpow radix2 b) = correlation_f vi vj c.
Proof.
  intros vi vj c a b FI FJ LI LJ LI' LJ'.
  assert (MIN : forall e, (-1000 <= e)%Z -> bpow radix2 (-1022) <= bpow radix2 e) by (intros e H; apply bpow_le; lia).
  assert (UNC : forall v k, bpow radix2 (-1000) <= v -> bpow radix2 (-1000) <= v * bpow radix2 (2 * k) -> rnd (sqrt (v * bpow radix2 (2 * k))) = rnd (sqrt v) * bpow radix2 k).
  { intros v k L L'. apply sqrt_low in L. apply sqrt_low in L'. rewrite sqrt_scale in L' |- *. pose proof (MIN (-500)%Z ltac:(lia)).
    apply rnd_scale; (eapply Rle_trans; [|apply Rle_abs]); lra. }
  assert (B10 : 0 < bpow radix2 (-1000)) by apply bpow_gt_0.
  split.
  { rewrite <- (rnd_id vi FI). rewrite <- rnd_scale; [apply rnd_float| |].
    - rewrite Rabs_right by lra. pose proof (MIN (-1000)%Z ltac:(lia)). lra.
    - rewrite Rabs_right by lra. pose proof (MIN (-1000)%Z ltac:(lia)). lra. }
  split; [now apply UNC|].
  unfold correlation_f. destruct (Req_EM_T vi 0); [lra|]. destruct (Req_EM_T vj 0); [lra|].
  destruct (Req_EM_T (vi * bpow radix2 (2 * a)) 0); [lra|]. destruct (Req_EM_T (vj * bpow radix2 (2 * b)) 0); [lra|].
  assert (LOW : forall v, bpow radix2 (-1000) <= v -> bpow radix2 (-500) <= rnd (sqrt v)) by (intros v L; apply rnd_down; [apply is_bpow; lia|now apply sqrt_low]).
  assert (B5 : 0 < bpow radix2 (-500)) by apply bpow_gt_0.
  assert (PL : forall x y, bpow radix2 (-500) <= x -> bpow radix2 (-500) <= y -> bpow radix2 (-1000) <= x * y).
  { intros x y X Y. change (-1000)%Z with (-500 + -500)%Z. rewrite bpow_plus. apply Rmult_le_compat; lra. }
  pose proof (PL _ _ (LOW _ LI) (LOW _ LJ)) as P1. pose proof (PL _ _ (LOW _ LI') (LOW _ LJ')) as P2.
  rewrite (UNC vi a LI LI'), (UNC vj b LJ LJ') in *. set (p := rnd (sqrt vi) * rnd (sqrt vj)) in *.
  replace (rnd (sqrt vi) * bpow radix2 a * (rnd (sqrt vj) * bpow radix2 b)) with (p * bpow radix2 (a + b)) in * by (unfold p; rewrite bpow_plus; ring).
  pose proof (MIN (-1000)%Z ltac:(lia)) as M.
  rewrite rnd_scale by (rewrite Rabs_right; lra). f_equal.
  assert (DP : 0 < rnd p) by (apply Rlt_le_trans with (bpow radix2 (-1000)); [apply bpow_gt_0|]; apply rnd_down; [apply is_bpow; lia|exact P1]).
  rewrite bpow_plus. pose proof (bpow_gt_0 radix2 a). pose proof (bpow_gt_0 radix2 b). field. lra.
Qed.
Print Assumptions C249_correlations_do_not_depend_on_binary_units.
Example C249_nonvacuous : is_float 3 /\ bpow radix2 (-1000) <= 3 /\ bpow radix2 (-1000) <= 3 * bpow radix2 (2 * -3) /\
  correlation_f (3 * bpow radix2 (2 * -3)) (3 * bpow radix2 (2 * 5)) (3 * bpow radix2 (-3) * bpow radix2 5) = 1 + bpow radix2 (-52).
Proof.
  assert (F3 : is_float 3) by (replace 3 with (IZR 3 * bpow radix2 0) by (cbn; lra); apply dyadic; lia).
  assert (B : forall e, (-1000 <= e)%Z -> bpow radix2 (-1000) <= 3 * bpow radix2 e).
  { intros e E. apply (bpow_le radix2) in E. pose proof (bpow_gt_0 radix2 e). lra. }
  assert (B0 : bpow radix2 (-1000) <= 3) by (specialize (B 0%Z ltac:(lia)); cbn [bpow] in B; rewrite Rmult_1_r in B; exact B).
  split; [exact F3|]. split; [exact B0|]. split; [apply B; lia|].
  rewrite <- correlation_above_1. apply (C249_correlations_do_not_depend_on_binary_units 3 3 3 (-3) 5 F3 F3 B0 B0); apply B; lia.
Qed.

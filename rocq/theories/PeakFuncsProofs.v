(** Proofs about the peak functions. *)
From Coq Require Import Reals Lra Psatz.
From Coquelicot Require Import Coquelicot.
From Verif Require Import Prelude PeakFuncs.
Open Scope R_scope.

Lemma ln2_pos : 0 < ln 2.
Proof. rewrite <- ln_1. apply ln_increasing; lra. Qed.

Lemma s2f_pos : 0 < sigma2fwhm.
Proof. unfold sigma2fwhm. pose proof ln2_pos. assert (0 < sqrt (2 * ln 2)) by (apply sqrt_lt_R0; lra). lra. Qed.

Lemma s2f_sqr : sigma2fwhm ^ 2 = 8 * ln 2.
Proof. unfold sigma2fwhm. pose proof ln2_pos. rewrite Rpow_mult_distr, pow2_sqrt by lra. ring. Qed.

(** *** Periodicity over Z *)
Lemma sin_2kpi x (k : Z) : sin (x + 2 * IZR k * PI) = sin x.
Proof.
  destruct (Z.le_ge_cases 0 k) as [H|H].
  - rewrite <- (Z2Nat.id k H), <- INR_IZR_INZ. apply sin_period.
  - rewrite <- (sin_period (x + 2 * IZR k * PI) (Z.to_nat (- k))). f_equal.
    rewrite INR_IZR_INZ, Z2Nat.id by lia. rewrite opp_IZR. ring.
Qed.

Lemma even_split n : Z.even n = true -> exists k, n = (2 * k)%Z.
Proof. intros H. apply Z.even_spec in H. exact H. Qed.
Lemma odd_split n : Z.even n = false -> exists k, n = (2 * k + 1)%Z.
Proof. intros H. rewrite <- Z.negb_odd in H. apply negb_false_iff in H. apply Z.odd_spec in H. exact H. Qed.

Lemma sin_normal q : sin (normal_width q) = sin q.
Proof.
  unfold normal_width. set (n := Int_part _). destruct (Z.even n) eqn:E.
  - apply even_split in E as [k ->]. rewrite mult_IZR.
    rewrite <- (sin_2kpi (q - PI * (2 * IZR k)) k). f_equal. ring.
  - apply odd_split in E as [k ->]. rewrite plus_IZR, mult_IZR.
    replace (PI * (2 * IZR k + 1) - q) with (PI - q + 2 * IZR k * PI) by ring.
    rewrite sin_2kpi. apply sin_PI_x.
Qed.

Lemma normal_range q : - (PI / 2) <= normal_width q <= PI / 2.
Proof.
  unfold normal_width. set (n := Int_part _).
  pose proof (base_Int_part ((q + PI / 2) / PI)) as [H1 H2]. fold n in H1, H2. pose proof PI_RGT_0 as P.
  assert (A : PI * IZR n <= q + PI / 2).
  { apply Rmult_le_reg_r with (/ PI); [apply Rinv_0_lt_compat; lra|].
    replace (PI * IZR n * / PI) with (IZR n) by (field; lra). exact H1. }
  assert (B : q + PI / 2 < PI * IZR n + PI).
  { apply Rmult_lt_reg_r with (/ PI); [apply Rinv_0_lt_compat; lra|].
    replace ((PI * IZR n + PI) * / PI) with (IZR n + 1) by (field; lra).
    unfold Rdiv in H2. lra. }
  destruct (Z.even n); lra.
Qed.

Lemma Int_part_unique x n : IZR n <= x < IZR n + 1 -> Int_part x = n.
Proof.
  intros [H1 H2]. unfold Int_part. pose proof (archimed x) as [H3 H4].
  assert (U : up x = (n + 1)%Z); [|lia].
  apply Z.le_antisymm.
  - apply Z.lt_succ_r. apply lt_IZR. rewrite succ_IZR, plus_IZR. lra.
  - assert (n < up x)%Z by (apply lt_IZR; lra). lia.
Qed.

Lemma normal_id q : - (PI / 2) <= q <= PI / 2 -> normal_width q = q.
Proof.
  intros [H1 H2]. pose proof PI_RGT_0 as P. unfold normal_width.
  destruct (Rle_lt_or_eq_dec _ _ H2) as [H|H].
  - rewrite (Int_part_unique _ 0).
    + cbn. ring.
    + split; unfold Rdiv.
      * apply Rmult_le_pos; [lra|]. left. apply Rinv_0_lt_compat. lra.
      * apply Rmult_lt_reg_r with PI; [lra|]. rewrite Rmult_assoc, Rinv_l by lra. lra.
  - subst q. rewrite (Int_part_unique _ 1).
    + cbn. lra.
    + replace ((PI / 2 + PI / 2) / PI) with 1 by (field; lra). lra.
Qed.

Section W.
Variable W : R.
Hypothesis HW : 0 < W.

Lemma c1_pos : 0 < c1 W.
Proof.
  unfold c1. apply Rmult_lt_0_compat; [exact HW|]. apply sqrt_lt_R0. pose proof PI_RGT_0. pose proof ln2_pos.
  unfold Rdiv. apply Rmult_lt_0_compat; [lra|]. apply Rinv_0_lt_compat. lra.
Qed.
Lemma c2_pos : 0 < c2 W.
Proof.
  unfold c2. pose proof ln2_pos. unfold Rdiv. apply Rmult_lt_0_compat; [nra|]. apply Rinv_0_lt_compat. lra.
Qed.

Lemma sinp_nonneg q : 0 <= sin q + 1.
Proof. pose proof (SIN_bound q). lra. Qed.

Lemma degenerate_false p : degenerate p = false <-> 0 < sin (p_wid p) + 1.
Proof.
  unfold degenerate. destruct (Req_EM_T _ _); pose proof (sinp_nonneg (p_wid p)); split; intros; try discriminate; try lra; auto.
Qed.

Lemma degenerate_normal p : degenerate (P3 (p_pos p) (normal_width (p_wid p)) (Rabs (p_area p))) = degenerate p.
Proof. unfold degenerate. cbn [p_wid]. now rewrite sin_normal. Qed.

(** FWHM of internal width q *)
Lemma fwhm_form q : width_out W Pwa q = W * sqrt ((sin q + 1) / 2).
Proof.
  unfold width_out. pose proof (sinp_nonneg q).
  replace (1 / 2 * (sin q + 1) * W ^ 2) with (W ^ 2 * ((sin q + 1) / 2)) by field.
  rewrite sqrt_mult by (first [apply pow2_ge_0 | lra]). now rewrite sqrt_pow2 by lra.
Qed.
Lemma fwhm_sqr q : width_out W Pwa q ^ 2 = W ^ 2 * ((sin q + 1) / 2).
Proof.
  rewrite fwhm_form, Rpow_mult_distr, pow2_sqrt; [reflexivity|]. pose proof (sinp_nonneg q). lra.
Qed.
Lemma fwhm_range q : 0 <= width_out W Pwa q <= W.
Proof.
  rewrite fwhm_form. pose proof (sinp_nonneg q). pose proof (SIN_bound q). split.
  - apply Rmult_le_pos; [lra|apply sqrt_pos].
  - rewrite <- (Rmult_1_r W) at 2. apply Rmult_le_compat_l; [lra|].
    apply Rle_trans with (sqrt 1); [apply sqrt_le_1; lra|rewrite sqrt_1; lra].
Qed.

Lemma width_in_ok w : - W <= w <= W -> width_in W w = Ok (Some (asin (2 * w ^ 2 / W ^ 2 - 1))).
Proof.
  intros H. unfold width_in. destruct (Rlt_dec W w); [lra|]. destruct (Rle_dec (- W) w); [reflexivity|lra].
Qed.

Lemma asin_arg w : - W <= w <= W -> -1 <= 2 * w ^ 2 / W ^ 2 - 1 <= 1.
Proof.
  intros H. assert (K : 0 <= w ^ 2 / W ^ 2 <= 1).
  { split.
    - unfold Rdiv. apply Rmult_le_pos; [apply pow2_ge_0|]. left. apply Rinv_0_lt_compat. nra.
    - apply Rmult_le_reg_r with (W ^ 2); [nra|]. unfold Rdiv. rewrite Rmult_assoc, Rinv_l by nra. nra. }
  unfold Rdiv in *. lra.
Qed.

Lemma out_asin w : - W <= w <= W -> width_out W Pwa (asin (2 * w ^ 2 / W ^ 2 - 1)) = Rabs w.
Proof.
  intros H. unfold width_out. rewrite sin_asin by (apply asin_arg; exact H).
  replace (1 / 2 * (2 * w ^ 2 / W ^ 2 - 1 + 1) * W ^ 2) with (w ^ 2) by (field; lra).
  rewrite <- (pow2_abs w). apply sqrt_pow2. apply Rabs_pos.
Qed.

Lemma in_out q : - (PI / 2) <= q <= PI / 2 ->
  width_in W (width_out W Pwa q) = Ok (Some q).
Proof.
  intros H. pose proof (fwhm_range q). rewrite width_in_ok by lra. do 2 f_equal.
  rewrite fwhm_sqr. replace (2 * (W ^ 2 * ((sin q + 1) / 2)) / W ^ 2 - 1) with (sin q) by (field; lra).
  apply asin_sin. lra.
Qed.

Lemma sigma_out q : width_out W MuSigmaArea q = width_out W Pwa q / sigma2fwhm.
Proof. reflexivity. Qed.

End W.

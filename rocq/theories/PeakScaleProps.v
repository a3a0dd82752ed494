(** Property C27 (scale_at). *)
From Coq Require Import Reals Lra Psatz.
From Coquelicot Require Import Coquelicot.
From Verif Require Import Prelude PeakFuncs PeakFuncsProofs PeakFuncsMore PeakFuncsProps PeakMaxProps.
Open Scope R_scope.

(** ln-ratio between the curve at x and at its stationary point m, when mu = m + s^2/m. *)
Lemma curve_ratio m s a x : 0 < s -> m <> 0 ->
  normal_curve (m + s ^ 2 / m) s a x =
  normal_curve (m + s ^ 2 / m) s a m * exp (- ((x - m) ^ 2 / (2 * s ^ 2) - (x - m) / m)).
Proof.
  intros Hs Hm. unfold normal_curve. rewrite Rmult_assoc, <- exp_plus. f_equal. f_equal. field. split; lra.
Qed.

Lemma curve_at_m m s a k : 0 < s -> m <> 0 ->
  normal_curve (m + s ^ 2 / m) s a m = k -> a / (s * sqrt (2 * PI)) * exp (- (m - (m + s ^ 2 / m)) ^ 2 / (2 * s ^ 2)) = k.
Proof. intros _ _ H. exact H. Qed.

Lemma rplus_mu mu s : 4 * s ^ 2 < mu ^ 2 -> 0 < s -> rplus mu s <> 0 /\ mu = rplus mu s + s ^ 2 / rplus mu s.
Proof.
  intros H Hs. pose proof (roots_prod mu s H) as P. pose proof (roots_sum mu s) as S.
  assert (0 < s ^ 2) by (apply pow_lt; exact Hs).
  assert (N : rplus mu s <> 0) by (intros E; rewrite E in P; lra).
  split; [exact N|]. rewrite <- P at 1. unfold Rdiv. rewrite Rmult_assoc, Rinv_r by exact N. lra.
Qed.

Section W.
Variable W : R.
Hypothesis HW : 0 < W.

Lemma rescaled_ok mu s a p' : 0 < s -> rescaled W mu s a = Ok (inject p') ->
  p_pos p' = mu /\ sigma_of W p' = s /\ p_area p' = a /\ degenerate p' = false.
Proof.
  intros Hs. pose proof s2f_pos as S0. assert (Hf : 0 < s * sigma2fwhm) by (apply Rmult_lt_0_compat; assumption).
  unfold rescaled, transform. cbn [fmt_eqb andb negb p_wid p_pos p_area].
  unfold width_in. destruct (Rlt_dec W (s * sigma2fwhm)) as [|L]; [discriminate|].
  destruct (Rle_dec (- W) (s * sigma2fwhm)) as [_|N]; [|lra].
  cbn [bind option_map width_out]. unfold inject. intros E.
  assert (E1 : mu = p_pos p') by congruence. assert (E3 : a = p_area p') by congruence.
  assert (E2 : asin (2 * (s * sigma2fwhm) ^ 2 / W ^ 2 - 1) = p_wid p') by congruence.
  assert (SG : sigma_of W p' = s).
  { unfold sigma_of. rewrite sigma_out, <- E2, out_asin by lra. rewrite Rabs_pos_eq by lra. field. lra. }
  repeat split; auto.
  apply degenerate_false. pose proof (sinp_nonneg (p_wid p')) as NN. destruct (Rle_lt_or_eq_dec _ _ NN) as [G|E0]; [exact G|].
  exfalso. pose proof (sigma_sqr W HW p') as S2. rewrite <- E0, SG in S2. pose proof ln2_pos.
  replace (W ^ 2 * (0 / 2) / (8 * ln 2)) with 0 in S2 by (field; lra). assert (0 < s ^ 2) by (apply pow_lt; exact Hs). lra.
Qed.

Lemma rescaled_fits mu s a : 0 < s -> s * sigma2fwhm <= W -> exists p', rescaled W mu s a = Ok (inject p').
Proof.
  intros Hs H. pose proof s2f_pos as S0. assert (Hf : 0 < s * sigma2fwhm) by (apply Rmult_lt_0_compat; assumption).
  unfold rescaled, transform. cbn [fmt_eqb andb negb p_wid p_pos p_area]. rewrite width_in_ok by lra.
  exists (P3 mu (asin (2 * (s * sigma2fwhm) ^ 2 / W ^ 2 - 1)) a). reflexivity.
Qed.
Lemma rescaled_wide mu s a : W < s * sigma2fwhm -> rescaled W mu s a = Err ScalingError.
Proof.
  intros H. unfold rescaled, transform. cbn [fmt_eqb andb negb p_wid p_pos p_area]. unfold width_in.
  destruct (Rlt_dec W (s * sigma2fwhm)); [reflexivity|lra].
Qed.

(** The algebra of gaussianoverr.py:236-245. *)
Definition sigma2_sqr (m s1 x scale : R) : R := (x - m) ^ 2 / ((x - m) ^ 2 / s1 ^ 2 - 2 * ln scale).

Lemma den_eq m mu s1 x scale : 0 < s1 -> m <> 0 -> 0 < scale -> mu = m + s1 ^ 2 / m ->
  x - m + m * (ln (1 / scale) + (x - m) * (x - 2 * mu + m) / (2 * s1 ^ 2))
  = m * ((x - m) ^ 2 / (2 * s1 ^ 2) - ln scale).
Proof.
  intros Hs Hm Hsc ->. replace (1 / scale) with (/ scale) by (field; lra). rewrite ln_Rinv by exact Hsc. field. split; lra.
Qed.

Lemma gor_scale_unfold p x scale : 0 < scale -> scale <> 1 -> degenerate p = false ->
  4 * sigma_of W p ^ 2 < p_pos p ^ 2 ->
  let s1 := sigma_of W p in let m := rplus (p_pos p) s1 in
  let d := (x - m) ^ 2 / (2 * s1 ^ 2) - ln scale in
  gor_scale_at W p x scale =
    if Req_EM_T d 0 then Err ScalingError else
    if Req_EM_T x m then Ok (X3 (Some m) (Some (asin (-1))) None) else
    if Rlt_dec d 0 then Ok (X3 None None None) else
    let s2 := sqrt (sigma2_sqr m s1 x scale) in
    rescaled W (m + s2 ^ 2 / m) s2
      (Rabs (p_area p) * (s2 / s1) * exp (- (m - p_pos p) ^ 2 / (2 * s1 ^ 2))
               / exp (- (m - (m + s2 ^ 2 / m)) ^ 2 / (2 * s2 ^ 2))).
Proof.
  intros Hsc Hne D N s1 m d.
  assert (Hs1 : 0 < s1) by (now apply sigma_pos).
  destruct (rplus_mu (p_pos p) s1 N Hs1) as [Hm Hmu]. fold m in Hm, Hmu.
  unfold gor_scale_at. destruct (Rle_dec scale 0) as [|_]; [lra|]. destruct (Req_EM_T scale 1) as [|_]; [contradiction|].
  rewrite msa_eq. fold s1. destruct (Rle_dec (p_pos p ^ 2) (4 * s1 ^ 2)) as [Q|_]; [exfalso; fold s1 in N; lra|]. rewrite D.
  change (1 / 2 * (p_pos p + sqrt (p_pos p ^ 2 - 4 * s1 ^ 2))) with m.
  rewrite (den_eq m (p_pos p) s1 x scale Hs1 Hm Hsc Hmu). fold d.
  destruct (Req_EM_T (m * d) 0) as [E|E]; destruct (Req_EM_T d 0) as [E'|E'];
    [reflexivity| apply Rmult_integral in E; destruct E; contradiction | exfalso; apply E; rewrite E'; ring |].
  assert (Q : 1 / 2 * m * (x - m) ^ 2 / (m * d) = (x - m) ^ 2 / 2 / d) by (field; split; assumption).
  rewrite Q.
  destruct (Req_EM_T x m) as [Ex|Ex].
  - assert (Z : (x - m) ^ 2 / 2 / d = 0) by (rewrite Ex; field; assumption). rewrite Z.
    destruct (Rlt_dec 0 0); [lra|]. rewrite sqrt_0. destruct (Req_EM_T 0 0); [|contradiction].
    do 2 f_equal. f_equal. field. exact Hm.
  - assert (X2 : 0 < (x - m) ^ 2) by (rewrite <- Rsqr_pow2; apply Rsqr_pos_lt; lra).
    destruct (Rlt_dec d 0) as [Dn|Dp].
    + destruct (Rlt_dec ((x - m) ^ 2 / 2 / d) 0) as [_|F]; [reflexivity|]. exfalso. apply F.
      replace ((x - m) ^ 2 / 2 / d) with (- ((x - m) ^ 2 / 2 * / - d)) by (field; lra).
      apply Ropp_lt_gt_0_contravar. apply Rmult_lt_0_compat; [lra|]. apply Rinv_0_lt_compat. lra.
    + assert (0 < d) by lra.
      assert (QP : 0 < (x - m) ^ 2 / 2 / d).
      { unfold Rdiv at 1. apply Rmult_lt_0_compat; [lra|]. now apply Rinv_0_lt_compat. }
      destruct (Rlt_dec ((x - m) ^ 2 / 2 / d) 0); [lra|].
      assert (S2 : sigma2_sqr m s1 x scale = (x - m) ^ 2 / 2 / d).
      { unfold sigma2_sqr. replace ((x - m) ^ 2 / s1 ^ 2 - 2 * ln scale) with (2 * d) by (unfold d; field; lra).
        field. lra. }
      rewrite S2. set (s2 := sqrt ((x - m) ^ 2 / 2 / d)).
      assert (0 < s2) by (now apply sqrt_lt_R0).
      destruct (Req_EM_T s2 0); [lra|].
      replace ((s2 ^ 2 + m ^ 2) / m) with (m + s2 ^ 2 / m) by (field; exact Hm). reflexivity.
Qed.

Lemma gor_scale_result p x scale p' : 0 < scale -> scale <> 1 -> degenerate p = false ->
  4 * sigma_of W p ^ 2 < p_pos p ^ 2 -> gor_scale_at W p x scale = Ok (inject p') ->
  let s1 := sigma_of W p in let m := rplus (p_pos p) s1 in let s2 := sigma_of W p' in
  degenerate p' = false /\ x <> m /\ 0 < s2 /\ p_pos p' = m + s2 ^ 2 / m /\
  / s2 ^ 2 = / s1 ^ 2 - 2 * ln scale / (x - m) ^ 2 /\ 0 <= p_area p' /\
  normal_curve (p_pos p') s2 (p_area p') m = normal_curve (p_pos p) s1 (Rabs (p_area p)) m.
Proof.
  intros Hsc Hne D N E s1 m s2. rewrite gor_scale_unfold in E by assumption. cbv zeta in E. fold s1 m in E.
  assert (Hs1 : 0 < s1) by (now apply sigma_pos).
  destruct (Req_EM_T _ 0) as [|Hd] in E; [discriminate|].
  destruct (Req_EM_T x m) as [|Hx] in E; [discriminate|].
  destruct (Rlt_dec _ 0) as [|Hp] in E; [discriminate|].
  assert (X2 : 0 < (x - m) ^ 2) by (rewrite <- Rsqr_pow2; apply Rsqr_pos_lt; lra).
  assert (DP : 0 < (x - m) ^ 2 / (2 * s1 ^ 2) - ln scale) by lra.
  assert (DP2 : 0 < (x - m) ^ 2 / s1 ^ 2 - 2 * ln scale).
  { replace ((x - m) ^ 2 / s1 ^ 2) with (2 * ((x - m) ^ 2 / (2 * s1 ^ 2))) by (field; lra). lra. }
  set (q := sigma2_sqr m s1 x scale) in *.
  assert (Qp : 0 < q).
  { unfold q, sigma2_sqr, Rdiv at 1. apply Rmult_lt_0_compat; [exact X2|]. now apply Rinv_0_lt_compat. }
  assert (SQ : 0 < sqrt q) by (now apply sqrt_lt_R0).
  apply rescaled_ok in E; [|exact SQ]. destruct E as (E1 & E2 & E3 & E4). fold s2 in E2.
  rewrite <- E2 in E1, E3, SQ.
  assert (S2 : s2 ^ 2 = q) by (rewrite E2; apply pow2_sqrt; lra).
  split; [exact E4|]. split; [exact Hx|]. split; [exact SQ|]. split; [exact E1|]. split; [|split].
  - assert (NZ : (x - m) ^ 2 - 2 * ln scale * s1 ^ 2 <> 0).
    { replace ((x - m) ^ 2 - 2 * ln scale * s1 ^ 2) with (s1 ^ 2 * ((x - m) ^ 2 / s1 ^ 2 - 2 * ln scale)) by (field; lra).
      apply Rgt_not_eq. apply Rmult_lt_0_compat; [apply pow_lt; exact Hs1|exact DP2]. }
    rewrite S2. unfold q, sigma2_sqr. field. repeat split; try lra; try exact NZ.
  - rewrite E3. unfold Rdiv. apply Rmult_le_pos; [|left; apply Rinv_0_lt_compat, exp_pos].
    apply Rmult_le_pos; [|left; apply exp_pos]. apply Rmult_le_pos; [apply Rabs_pos|].
    apply Rmult_le_pos; [lra|]. left. now apply Rinv_0_lt_compat.
  - unfold normal_curve. rewrite E3, E1.
    assert (0 < sqrt (2 * PI)) by (apply sqrt_lt_R0; pose proof PI_RGT_0; lra).
    pose proof (exp_pos (- (m - (m + s2 ^ 2 / m)) ^ 2 / (2 * s2 ^ 2))).
    set (ee := exp (- (m - (m + s2 ^ 2 / m)) ^ 2 / (2 * s2 ^ 2))) in *. 
    set (e0 := exp (- (m - p_pos p) ^ 2 / (2 * s1 ^ 2))). field. repeat split; lra.
Qed.
End W.

(** When GaussianOverR.scale_at returns finite parameters, the new peak at x is scale
    times the old one, and at the old maximum it has the same (stationary) value. *)
Theorem C27_gaussianoverr_scale_at :
  forall W p x scale p', 0 < W -> 0 < scale -> scale <> 1 -> degenerate p = false ->
    gor_scale_at W p x scale = Ok (inject p') ->
    exists m h, gor_max W p = Ok (m, Some h) /\ gor_value W p' m = Some h /\
      (x <> 0 -> exists v, gor_value W p x = Some v /\ gor_value W p' x = Some (scale * v)) /\
      (* m is still where the maximum is, as long as the new width is below m *)
      (0 < p_pos p -> (gor_max W p' = Ok (m, Some h) <-> sigma_of W p' < m)).
Proof.
  intros W p x scale p' HW Hsc Hne D E.
  destruct (Rle_dec (p_pos p ^ 2) (4 * sigma_of W p ^ 2)) as [L|N].
  { exfalso. unfold gor_scale_at in E. destruct (Rle_dec scale 0); [lra|]. destruct (Req_EM_T scale 1); [contradiction|].
    rewrite msa_eq in E. destruct (Rle_dec _ _); [discriminate|contradiction]. }
  assert (N' : 4 * sigma_of W p ^ 2 < p_pos p ^ 2) by lra.
  destruct (gor_scale_result W HW p x scale p' Hsc Hne D N' E) as (D' & Hx & Hs2 & Hmu2 & Hinv & Ha' & Heq).
  set (s1 := sigma_of W p) in *. set (m := rplus (p_pos p) s1) in *. set (s2 := sigma_of W p') in *.
  assert (Hs1 : 0 < s1) by (now apply sigma_pos).
  destruct (rplus_mu (p_pos p) s1 N' Hs1) as [Hm Hmu1]. fold m in Hm, Hmu1.
  set (h := normal_curve (p_pos p) s1 (Rabs (p_area p)) m / Rabs m).
  assert (V1 : gor_value W p m = Some h) by (apply gor_curve; assumption).
  assert (V2 : gor_value W p' m = Some h).
  { rewrite gor_curve by assumption. fold s2. rewrite (Rabs_pos_eq (p_area p')) by exact Ha'. rewrite Heq. reflexivity. }
  exists m, h. split.
  { rewrite gor_max_eq by exact HW. fold s1. destruct (Rle_dec _ _); [lra|]. fold m. now rewrite V1. }
  split; [exact V2|]. split.
  - intros Hx0. exists (normal_curve (p_pos p) s1 (Rabs (p_area p)) x / Rabs x). split; [now apply gor_curve|].
    rewrite gor_curve by assumption. fold s2. rewrite (Rabs_pos_eq (p_area p')) by exact Ha'. f_equal.
    unfold Rdiv. rewrite <- Rmult_assoc. f_equal.
    rewrite Hmu2 at 1. rewrite curve_ratio by assumption. rewrite <- Hmu2, Heq.
    rewrite Hmu1 at 2. rewrite (curve_ratio m s1) by assumption. rewrite <- Hmu1.
    rewrite (Rmult_comm scale), Rmult_assoc. f_equal.
    rewrite <- (exp_ln scale Hsc) at 1. rewrite <- exp_plus. f_equal.
    assert (X2 : (x - m) ^ 2 <> 0) by (apply pow_nonzero; lra).
    replace ((x - m) ^ 2 / (2 * s2 ^ 2)) with ((x - m) ^ 2 / 2 * / s2 ^ 2) by (field; lra).
    rewrite Hinv. field. split; lra.
  - intros Hpos. rewrite gor_max_eq by exact HW. fold s2.
    assert (Mp : 0 < m).
    { pose proof (roots_pos _ _ Hpos Hs1 N'). pose proof (roots_order _ _ N'). unfold m. lra. }
    assert (S2s : 0 < s2 ^ 2) by (apply pow_lt; exact Hs2).
    assert (DD : p_pos p' ^ 2 - 4 * s2 ^ 2 = (m - s2 ^ 2 / m) ^ 2) by (rewrite Hmu2; field; exact Hm).
    split.
    + destruct (Rle_dec _ _) as [L|L]; [discriminate|]. intros [= E1 _].
      unfold rplus in E1. rewrite DD in E1. 
      destruct (Rle_lt_dec m s2) as [G|G]; [|exact G]. exfalso.
      assert (K : m - s2 ^ 2 / m <= 0).
      { apply Rmult_le_reg_r with m; [exact Mp|]. unfold Rdiv. rewrite Rmult_0_l, Rmult_minus_distr_r, (Rmult_assoc (s2 ^ 2)), Rinv_l by exact Hm. nra. }
      rewrite <- (pow2_abs (m - s2 ^ 2 / m)), sqrt_pow2 in E1 by apply Rabs_pos.
      rewrite Rabs_left1 in E1 by exact K. rewrite Hmu2 in E1.
      assert (K2 : s2 ^ 2 / m = m) by lra. assert (m - s2 ^ 2 / m = 0) as Z by lra. rewrite Z in DD. apply L. lra.
    + intros G. assert (K : 0 < m - s2 ^ 2 / m).
      { apply Rmult_lt_reg_r with m; [exact Mp|]. unfold Rdiv. rewrite Rmult_0_l, Rmult_minus_distr_r, (Rmult_assoc (s2 ^ 2)), Rinv_l by exact Hm. nra. }
      assert (0 < (m - s2 ^ 2 / m) ^ 2) by (apply pow_lt; exact K).
      destruct (Rle_dec _ _) as [L|_]; [lra|].
      assert (RP : rplus (p_pos p') s2 = m).
      { unfold rplus. rewrite DD, sqrt_pow2 by lra. rewrite Hmu2. field. exact Hm. }
      rewrite RP. rewrite V2. reflexivity.
Qed.
Print Assumptions C27_gaussianoverr_scale_at.

(** Every outcome of GaussianOverR.scale_at for a peak with a maximum at m: with
    d = (x-m)^2/(2 sigma^2), finite parameters exactly when x <> m, ln scale < d and the
    required width is allowed; SrMiseScalingError when too wide; otherwise the method
    returns, without any error, parameters that are not numbers. *)
Theorem C27_outcomes :
  forall W p x scale m h, 0 < W -> 0 < scale -> scale <> 1 -> degenerate p = false -> gor_max W p = Ok (m, h) ->
    let d := (x - m) ^ 2 / (2 * sigma_of W p ^ 2) in
    let s2 := sqrt ((x - m) ^ 2 / ((x - m) ^ 2 / sigma_of W p ^ 2 - 2 * ln scale)) in
    (x <> m -> ln scale < d -> s2 * sigma2fwhm <= W -> exists p', gor_scale_at W p x scale = Ok (inject p')) /\
    (x <> m -> ln scale < d -> W < s2 * sigma2fwhm -> gor_scale_at W p x scale = Err ScalingError) /\
    (x <> m -> ln scale = d -> gor_scale_at W p x scale = Err ScalingError) /\
    (x <> m -> d < ln scale -> gor_scale_at W p x scale = Ok (X3 None None None)) /\
    (x = m -> exists w, gor_scale_at W p x scale = Ok (X3 (Some m) w None)).
Proof.
  intros W p x scale m h HW Hsc Hne D. rewrite gor_max_eq by exact HW. destruct (Rle_dec _ _) as [|N]; [discriminate|].
  intros [= <- _]. assert (N' : 4 * sigma_of W p ^ 2 < p_pos p ^ 2) by lra. cbv zeta.
  rewrite gor_scale_unfold by assumption. cbv zeta.
  set (s1 := sigma_of W p) in *. set (m := rplus (p_pos p) s1).
  assert (Hs1 : 0 < s1) by (now apply sigma_pos).
  assert (X2 : x <> m -> 0 < (x - m) ^ 2) by (intros; rewrite <- Rsqr_pow2; apply Rsqr_pos_lt; lra).
  assert (S2 : x <> m -> ln scale < (x - m) ^ 2 / (2 * s1 ^ 2) ->
     0 < sqrt ((x - m) ^ 2 / ((x - m) ^ 2 / s1 ^ 2 - 2 * ln scale))).
  { intros Hx Hd. apply sqrt_lt_R0. unfold Rdiv at 1. apply Rmult_lt_0_compat; [now apply X2|]. apply Rinv_0_lt_compat.
    replace ((x - m) ^ 2 / s1 ^ 2) with (2 * ((x - m) ^ 2 / (2 * s1 ^ 2))) by (field; lra). lra. }
  split; [|split; [|split; [|split]]]; intros Hx.
  - intros Hd Hw. destruct (Req_EM_T _ 0); [lra|]. destruct (Req_EM_T x m); [contradiction|]. destruct (Rlt_dec _ 0); [lra|].
    apply rescaled_fits; auto.
  - intros Hd Hw. destruct (Req_EM_T _ 0); [lra|]. destruct (Req_EM_T x m); [contradiction|]. destruct (Rlt_dec _ 0); [lra|].
    apply rescaled_wide; auto.
  - intros Hd. destruct (Req_EM_T _ 0); [reflexivity|lra].
  - intros Hd. destruct (Req_EM_T _ 0); [lra|]. destruct (Req_EM_T x m); [contradiction|]. destruct (Rlt_dec _ 0); [reflexivity|lra].
  - assert (L : (x - m) ^ 2 / (2 * s1 ^ 2) - ln scale <> 0).
    { rewrite Hx. replace ((m - m) ^ 2 / (2 * s1 ^ 2)) with 0 by (field; lra).
      intros E. assert (ln scale = ln 1) by (rewrite ln_1; lra). apply ln_inv in H; lra. }
    destruct (Req_EM_T _ 0); [contradiction|]. destruct (Req_EM_T x m); [eauto|contradiction].
Qed.
Print Assumptions C27_outcomes.

(** A peak with given mu, sigma, area in internal form. *)
Lemma internal_exists W mu s a : 0 < W -> 0 < s -> s * sigma2fwhm <= W -> 0 <= a ->
  exists p, p_pos p = mu /\ sigma_of W p = s /\ p_area p = a /\ degenerate p = false.
Proof.
  intros HW Hs Hw Ha. destruct (rescaled_fits W HW mu s a Hs Hw) as [p E]. exists p. now apply rescaled_ok in E.
Qed.

(** Peak.scale_at: all or nothing; fixed parameters never change; the reported True
    means exactly that the function's parameters were taken. *)
Theorem C27_peak_all_or_nothing :
  forall f p free x scale ok q, peak_scale_at f p free x scale = Ok (ok, q) ->
    (ok = false -> q = inject p) /\
    (ok = true -> f p x scale = Ok q /\
       let '(f0, f1, f2) := free in
       (f0 = false -> x_pos q = Some (p_pos p)) /\ (f1 = false -> x_wid q = Some (p_wid p)) /\
       (f2 = false -> x_area q = Some (p_area p)) /\ (f0 || f1 || f2 = true)).
Proof.
  assert (XN : forall a b, xneq a b = false -> b = Some a).
  { intros a [b|]; cbn; [|discriminate]. destruct (Req_EM_T a b); [subst; reflexivity|discriminate]. }
  intros f p [[f0 f1] f2] x scale ok q. unfold peak_scale_at.
  destruct (negb f0 && negb f1 && negb f2) eqn:F; [intros [= <- <-]; split; [reflexivity|discriminate]|].
  destruct (f p x scale) as [a|e] eqn:E.
  - destruct (_ || _ || _) eqn:G; [intros [= <- <-]; split; [reflexivity|discriminate]|].
    intros [= <- <-]. split; [discriminate|]. intros _. split; [reflexivity|].
    apply orb_false_iff in G as [G G3]. apply orb_false_iff in G as [G1 G2].
    split; [|split; [|split]].
    + intros ->. rewrite andb_true_r in G1. now apply XN.
    + intros ->. rewrite andb_true_r in G2. now apply XN.
    + intros ->. rewrite andb_true_r in G3. now apply XN.
    + destruct f0, f1, f2; auto.
  - destruct e; try discriminate. intros [= <- <-]. split; [reflexivity|discriminate].
Qed.
Print Assumptions C27_peak_all_or_nothing.

Lemma sqr_half : (1 / 2 : R) ^ 2 = 1 / 4. Proof. field. Qed.

Lemma witness_peak : exists p, p_pos p = 5 / 4 /\ sigma_of (4 * sigma2fwhm) p = 1 / 2 /\ p_area p = 1 /\ degenerate p = false
   /\ gor_max (4 * sigma2fwhm) p = Ok (1, gor_value (4 * sigma2fwhm) p 1).
Proof.
  pose proof s2f_pos as S0.
  destruct (internal_exists (4 * sigma2fwhm) (5/4) (1/2) 1) as (p & E1 & E2 & E3 & E4); try lra.
  exists p. repeat split; auto. rewrite gor_max_eq by lra. rewrite E1, E2.
  destruct (Rle_dec _ _) as [L|L]; [lra|].
  assert (R1 : rplus (5 / 4) (1 / 2) = 1).
  { unfold rplus. replace ((5 / 4) ^ 2 - 4 * (1 / 2) ^ 2) with ((3 / 4) ^ 2) by field. rewrite sqrt_pow2 by lra. field. }
  rewrite R1. reflexivity.
Qed.

(** Scaling up by more than the curve allows (here by e at distance 1/2 from the
    maximum): no exception, and Peak.scale_at stores NaN and reports success. *)
Theorem C78_nan_parameters_refuted :
  exists W p x scale, 0 < W /\ 0 < scale /\ degenerate p = false /\
    peak_scale_at (gor_scale_at W) p (true, true, true) x scale = Ok (true, X3 None None None).
Proof.
  pose proof s2f_pos as S0. destruct witness_peak as (p & E1 & E2 & E3 & D & M).
  exists (4 * sigma2fwhm), p, (3 / 2), (exp 1). split; [lra|]. split; [apply exp_pos|]. split; [exact D|].
  unfold peak_scale_at. cbn [negb andb].
  destruct (C27_outcomes (4 * sigma2fwhm) p (3 / 2) (exp 1) _ _ ltac:(lra) (exp_pos 1)
    ltac:(pose proof exp_ineq1; specialize (H 1); lra) D M) as (_ & _ & _ & Q & _).
  rewrite Q; [|lra|rewrite E2, ln_exp; lra]. reflexivity.
Qed.
Print Assumptions C78_nan_parameters_refuted.

(** A broad enough new peak no longer has its maximum where the old one had it. *)
Theorem C78_maximum_moves_refuted :
  exists W p x scale p' m h, 0 < W /\ 0 < scale /\ degenerate p = false /\
    gor_scale_at W p x scale = Ok (inject p') /\ gor_max W p = Ok (m, Some h) /\ gor_max W p' <> Ok (m, Some h).
Proof.
  pose proof s2f_pos as S0. destruct witness_peak as (p & E1 & E2 & E3 & D & M).
  assert (V : exists h, gor_value (4 * sigma2fwhm) p 1 = Some h).
  { rewrite gor_curve by (auto; lra). eauto. }
  destruct V as [h V]. rewrite V in M.
  assert (N1 : exp (15 / 8) <> 1) by (pose proof (exp_ineq1 (15/8)); lra).
  destruct (C27_outcomes (4 * sigma2fwhm) p 2 (exp (15 / 8)) _ _ ltac:(lra) (exp_pos _) N1 D M) as (Q & _).
  assert (SS : sqrt ((2 - 1) ^ 2 / ((2 - 1) ^ 2 / (1 / 2) ^ 2 - 2 * (15 / 8))) = 2).
  { replace ((2 - 1) ^ 2 / ((2 - 1) ^ 2 / (1 / 2) ^ 2 - 2 * (15 / 8))) with (2 ^ 2) by field. apply sqrt_pow2. lra. }
  rewrite E2, ln_exp, SS in Q. destruct Q as [p' Q]; try lra.
  exists (4 * sigma2fwhm), p, 2, (exp (15 / 8)), p', 1, h. split; [lra|]. split; [apply exp_pos|]. split; [exact D|].
  split; [exact Q|]. split; [exact M|].
  destruct (C27_gaussianoverr_scale_at (4 * sigma2fwhm) p 2 (exp (15 / 8)) p' ltac:(lra) (exp_pos _) N1 D Q) as (m & h' & M' & _ & _ & K).
  rewrite M in M'. injection M' as <- <-. rewrite K by lra. intros L.
  assert (4 * sigma_of (4 * sigma2fwhm) p ^ 2 < p_pos p ^ 2) by (rewrite E1, E2; lra).
  pose proof (gor_scale_result (4 * sigma2fwhm) ltac:(lra) p 2 (exp (15 / 8)) p' (exp_pos _) N1 D H Q) as (_ & _ & Sp & _ & Hinv & _).
  rewrite E1, E2, ln_exp in Hinv.
  assert (R1 : rplus (5 / 4) (1 / 2) = 1).
  { unfold rplus. replace ((5 / 4) ^ 2 - 4 * (1 / 2) ^ 2) with ((3 / 4) ^ 2) by field. rewrite sqrt_pow2 by lra. field. }
  rewrite R1 in Hinv. set (s2 := sigma_of (4 * sigma2fwhm) p') in *.
  replace (/ (1 / 2) ^ 2 - 2 * (15 / 8) / (2 - 1) ^ 2) with (/ 4) in Hinv by field.
  apply (f_equal Rinv) in Hinv. rewrite !Rinv_inv in Hinv. nra.
Qed.
Print Assumptions C78_maximum_moves_refuted.

(** The main theorem's hypotheses are met: scaling the same peak at x = 2 by 2. *)
Example C27_nonvacuous : exists W p p', 0 < W /\ degenerate p = false /\ gor_scale_at W p 2 2 = Ok (inject p').
Proof.
  pose proof s2f_pos as S0. destruct witness_peak as (p & E1 & E2 & E3 & D & M).
  destruct (C27_outcomes (4 * sigma2fwhm) p 2 2 _ _ ltac:(lra) ltac:(lra) ltac:(lra) D M) as (Q & _).
  assert (L : ln 2 < 1). { rewrite <- (ln_exp 1). apply ln_increasing; [lra|]. pose proof (exp_ineq1 1). lra. }
  pose proof ln2_pos.
  rewrite E2 in Q. destruct Q as [p' Q].
  - lra.
  - lra.
  - assert (Z : sqrt ((2 - 1) ^ 2 / ((2 - 1) ^ 2 / (1 / 2) ^ 2 - 2 * ln 2)) <= 1).
    { apply Rle_trans with (sqrt 1); [|rewrite sqrt_1; lra]. apply sqrt_le_1_alt.
      replace ((2 - 1) ^ 2 / ((2 - 1) ^ 2 / (1 / 2) ^ 2 - 2 * ln 2)) with (/ (4 - 2 * ln 2)) by (field; lra).
      apply Rle_trans with (/ 1); [apply Rinv_le_contravar; lra|rewrite Rinv_1; lra]. }
    set (z := sqrt _) in *. apply Rle_trans with (1 * sigma2fwhm); [apply Rmult_le_compat_r; lra|lra].
  - exists (4 * sigma2fwhm), p, p'. split; [lra|]. auto.
Qed.

(** ** Gaussian.scale_at *)
Theorem C27_gaussian_scale_at :
  forall W p x scale p', 0 < W -> 0 < scale -> scale <> 1 -> degenerate p = false -> x <> p_pos p ->
    gaussian_scale_at W p x scale = Ok (inject p') ->
    exists h v, gaussian_max W p = Ok (p_pos p, Some h) /\ gaussian_max W p' = Ok (p_pos p, Some h) /\
      gaussian_value W p x = Some v /\ gaussian_value W p' x = Some (scale * v).
Proof.
  intros W p x scale p' HW Hsc Hne D Hx. unfold gaussian_scale_at.
  destruct (Rle_dec scale 0) as [|_]; [lra|]. destruct (Req_EM_T scale 1) as [|_]; [contradiction|].
  rewrite msa_eq, D. destruct (Req_EM_T x (p_pos p)) as [|_]; [contradiction|].
  set (s1 := sigma_of W p). set (mu := p_pos p) in *. set (a1 := Rabs (p_area p)).
  set (den := 2 * ln (1 / scale) * s1 ^ 2 / (x - mu) ^ 2 + 1).
  destruct (Req_EM_T den 0) as [|Hd]; [destruct (Req_EM_T a1 0); discriminate|].
  destruct (Req_EM_T a1 0) as [|Ha]; [discriminate|]. destruct (Rlt_dec den 0) as [|Hn]; [discriminate|].
  assert (Hs1 : 0 < s1) by (now apply sigma_pos).
  assert (Dp : 0 < den) by lra. assert (Ap : 0 < a1) by (pose proof (Rabs_pos (p_area p)); unfold a1 in *; lra).
  assert (A2 : sqrt (a1 ^ 2 / den) = a1 / sqrt den).
  { rewrite sqrt_div by (try apply pow2_ge_0; lra). rewrite sqrt_pow2 by lra. reflexivity. }
  rewrite A2. assert (Sd : 0 < sqrt den) by (now apply sqrt_lt_R0).
  replace (s1 * (a1 / sqrt den) / a1) with (s1 / sqrt den) by (field; lra).
  assert (Hs2 : 0 < s1 / sqrt den) by (unfold Rdiv; apply Rmult_lt_0_compat; [exact Hs1|now apply Rinv_0_lt_compat]).
  intros E. apply rescaled_ok in E; [|exact HW|exact Hs2]. destruct E as (E1 & E2 & E3 & E4).
  assert (A0 : 0 <= p_area p').
  { rewrite E3. unfold Rdiv. apply Rmult_le_pos; [lra|]. left. now apply Rinv_0_lt_compat. }
  assert (P2 : 0 < sqrt (2 * PI)) by (apply sqrt_lt_R0; pose proof PI_RGT_0; lra).
  assert (Vp : forall r, gaussian_value W p r = Some (normal_curve mu s1 a1 r)) by (intros; now apply gaussian_curve).
  assert (Vp' : forall r, gaussian_value W p' r = Some (normal_curve mu (s1 / sqrt den) (a1 / sqrt den) r)).
  { intros r. rewrite gaussian_curve by assumption. rewrite E1, E2, (Rabs_pos_eq _ A0), E3. reflexivity. }
  exists (normal_curve mu s1 a1 mu), (normal_curve mu s1 a1 x).
  unfold gaussian_max. rewrite !msa_eq, E1. fold mu. rewrite !Vp, !Vp'.
  assert (SQ : (s1 / sqrt den) ^ 2 = s1 ^ 2 / den).
  { unfold Rdiv. rewrite Rpow_mult_distr, pow_inv, pow2_sqrt by lra. reflexivity. }
  repeat split.
  - do 3 f_equal. unfold normal_curve. rewrite SQ. replace (- (mu - mu) ^ 2 / (2 * (s1 ^ 2 / den))) with 0 by (field; lra).
    replace (- (mu - mu) ^ 2 / (2 * s1 ^ 2)) with 0 by (field; lra). rewrite exp_0. field. repeat split; lra.
  - f_equal. unfold normal_curve. rewrite SQ.
    replace (- (x - mu) ^ 2 / (2 * (s1 ^ 2 / den))) with (- (x - mu) ^ 2 / (2 * s1 ^ 2) + ln scale).
    + rewrite exp_plus, exp_ln by exact Hsc. field. repeat split; lra.
    + transitivity (- (x - mu) ^ 2 * den / (2 * s1 ^ 2)); [|field; lra].
      unfold den. replace (1 / scale) with (/ scale) by (field; lra). rewrite ln_Rinv by exact Hsc. field.
      repeat split; try lra; intros Z; apply Hx; lra.
Qed.
Print Assumptions C27_gaussian_scale_at.

(** Scaling a Gaussian at its own position wipes the peak out instead of failing. *)
Theorem C78_gaussian_at_maximum_refuted :
  forall W p scale, 0 < W -> 0 < scale -> scale <> 1 -> degenerate p = false -> p_area p <> 0 ->
    exists p', gaussian_scale_at W p (p_pos p) scale = Ok (inject p') /\ p_area p' = 0 /\ gaussian_value W p' (p_pos p) = None.
Proof.
  intros W p scale HW Hsc Hne D Ha. unfold gaussian_scale_at.
  destruct (Rle_dec scale 0) as [|_]; [lra|]. destruct (Req_EM_T scale 1) as [|_]; [contradiction|].
  rewrite msa_eq, D. destruct (Req_EM_T (p_pos p) (p_pos p)) as [_|]; [|contradiction].
  destruct (Req_EM_T (Rabs (p_area p)) 0) as [Z|_]; [exfalso; apply (Rabs_no_R0 _ Ha Z)|].
  unfold rescaled, transform. cbn [fmt_eqb andb negb p_wid p_pos p_area].
  rewrite Rmult_0_l, width_in_ok by lra. cbn [bind option_map].
  exists (P3 (p_pos p) (asin (2 * 0 ^ 2 / W ^ 2 - 1)) 0). split; [reflexivity|]. split; [reflexivity|].
  unfold gaussian_value, degenerate. cbn [p_wid].
  replace (2 * 0 ^ 2 / W ^ 2 - 1) with (-1) by (field; lra). rewrite sin_asin by lra.
  destruct (Req_EM_T (-1 + 1) 0); [reflexivity|exfalso; lra].
Qed.
Print Assumptions C78_gaussian_at_maximum_refuted.

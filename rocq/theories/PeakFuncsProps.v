(** Properties C22-C29 (Gaussian and GaussianOverR peak functions). *)
From Coq Require Import Reals Lra Psatz.
From Coquelicot Require Import Coquelicot.
From Verif Require Import Prelude PeakFuncs PeakFuncsProofs PeakFuncsMore.
Open Scope R_scope.

(** ** C22 *)
(** Preferred range of internal parameters. *)
Definition preferred (p : pars3) : Prop := - (PI / 2) <= p_wid p <= PI / 2 /\ 0 <= p_area p.
(** What a transformation returned, as parameters. *)
Definition returns (res : result (R * xR * R)) (q : pars3) : Prop :=
  res = Ok (p_pos q, Some (p_wid q), p_area q).

Theorem C22_normal_form :
  forall W p, 0 < W ->
    exists q, returns (transform W Internal Internal p) q /\ preferred q /\ p_pos q = p_pos p /\
      (* the curve is the same, at every r and for both peak functions *)
      (forall r, gor_value W q r = gor_value W p r) /\ (forall r, gaussian_value W q r = gaussian_value W p r) /\
      (* normal parameters are left alone: hence idempotence *)
      returns (transform W Internal Internal q) q /\ (preferred p -> q = p).
Proof.
  intros W p HW. exists (P3 (p_pos p) (normal_width (p_wid p)) (Rabs (p_area p))).
  split; [reflexivity|]. split; [split; cbn; [apply normal_range|apply Rabs_pos]|].
  split; [reflexivity|]. split; [|split; [|split]].
  - intros r. unfold gor_value. rewrite degenerate_normal. cbn [p_pos p_wid p_area].
    rewrite sin_normal, Rabs_Rabsolu. reflexivity.
  - intros r. unfold gaussian_value. rewrite degenerate_normal. cbn [p_pos p_wid p_area].
    rewrite sin_normal, Rabs_Rabsolu. reflexivity.
  - unfold returns, transform. cbn. rewrite Rabs_Rabsolu, normal_id by apply normal_range. reflexivity.
  - intros [H1 H2]. destruct p as [a b c]. cbn in *. rewrite normal_id, Rabs_pos_eq by assumption. reflexivity.
Qed.
Print Assumptions C22_normal_form.

Example C22_nonvacuous : exists q, returns (transform 1 Internal Internal (P3 2 (PI - 1) (-3))) q /\ p_wid q = 1 /\ p_area q = 3.
Proof.
  exists (P3 2 1 3). split; [|auto]. unfold returns, transform. cbn. rewrite Rabs_left by lra.
  replace (- -3) with 3 by lra.
  replace (normal_width (PI - 1)) with 1; [reflexivity|]. unfold normal_width.
  pose proof PI_RGT_0. pose proof PI2_3_2. pose proof PI_4.
  rewrite (Int_part_unique _ 1).
  - cbn. lra.
  - replace ((PI - 1 + PI / 2) / PI) with (3 / 2 - / PI) by (field; lra).
    assert (0 < / PI) by (now apply Rinv_0_lt_compat).
    assert (/ PI <= / 2). { apply Rinv_le_contravar; lra. }
    lra.
Qed.

(** ** C23 *)
Definition admissible (W : R) (f : fmt) (p : pars3) : Prop :=
  0 <= p_area p /\
  match f with
  | Internal => - (PI / 2) <= p_wid p <= PI / 2
  | Pwa => 0 <= p_wid p <= W
  | MuSigmaArea => 0 <= p_wid p * sigma2fwhm <= W
  end.

Lemma s2f_div x : x / sigma2fwhm * sigma2fwhm = x.
Proof. pose proof s2f_pos. field. lra. Qed.

Lemma to_internal W f p : 0 < W -> admissible W f p ->
  exists q, returns (transform W f Internal p) q /\ admissible W Internal q /\
            p_pos q = p_pos p /\ p_area q = p_area p /\ width_out W f (p_wid q) = p_wid p.
Proof.
  intros HW [Ha Hw]. destruct p as [m w a]. cbn in Ha, Hw. destruct f.
  - exists (P3 m w a). unfold returns, transform. cbn. rewrite normal_id, Rabs_pos_eq by assumption.
    repeat split; cbn; auto; lra.
  - exists (P3 m (asin (2 * w ^ 2 / W ^ 2 - 1)) a). unfold returns, transform. cbn [fmt_eqb andb negb p_wid p_pos p_area].
    rewrite width_in_ok by lra. cbn [bind option_map width_out]. split; [reflexivity|]. split; [split; [exact Ha|apply asin_bound]|]. split; [reflexivity|]. split; [reflexivity|].
    change (width_out W Pwa (asin (2 * w ^ 2 / W ^ 2 - 1)) = w). rewrite out_asin by lra. apply Rabs_pos_eq. lra.
  - exists (P3 m (asin (2 * (w * sigma2fwhm) ^ 2 / W ^ 2 - 1)) a). unfold returns, transform. cbn [fmt_eqb andb negb p_wid p_pos p_area].
    rewrite width_in_ok by lra. cbn [bind option_map width_out]. split; [reflexivity|]. split; [split; [exact Ha|apply asin_bound]|]. split; [reflexivity|]. split; [reflexivity|].
    change (width_out W Pwa (asin (2 * (w * sigma2fwhm) ^ 2 / W ^ 2 - 1)) / sigma2fwhm = w).
      rewrite out_asin by lra. rewrite Rabs_pos_eq by lra. pose proof s2f_pos. field. lra.
Qed.

Lemma from_internal W f p : 0 < W -> admissible W Internal p ->
  exists q, returns (transform W Internal f p) q /\ admissible W f q /\
            p_pos q = p_pos p /\ p_area q = p_area p /\ p_wid q = width_out W f (p_wid p).
Proof.
  intros HW [Ha Hw]. destruct p as [m w a]. cbn in Ha, Hw.
  exists (P3 m (width_out W f w) a). unfold returns, transform.
  destruct f; cbn [fmt_eqb andb negb p_pos p_wid p_area]; rewrite normal_id, Rabs_pos_eq by assumption;
    (split; [reflexivity|]); (split; [|repeat split]); split; cbn [p_wid p_area]; auto.
  - apply fwhm_range. exact HW.
  - rewrite sigma_out, s2f_div. apply fwhm_range. exact HW.
Qed.

(** Conversion between any two formats succeeds on admissible parameters, stays
    admissible, and converting back returns exactly the same numbers. *)
Theorem C23_round_trip :
  forall W i o p, 0 < W -> admissible W i p ->
    exists q, returns (transform W i o p) q /\ admissible W o q /\ returns (transform W o i q) p.
Proof.
  intros W i o p HW Hp.
  assert (Same : forall f, f <> Internal -> forall q, returns (transform W f f q) q).
  { intros f Hf q. unfold returns, transform. destruct f; [contradiction|reflexivity|reflexivity]. }
  assert (Via : i <> Internal -> o <> Internal -> i <> o ->
     forall q1, returns (transform W i Internal p) q1 -> 
       transform W i o p = Ok (p_pos q1, Some (width_out W o (p_wid q1)), p_area q1)).
  { intros Hi Ho Hio q1 H1. unfold returns, transform in *. destruct i, o; try congruence; cbn in *.
    - destruct (width_in W (p_wid p)) as [[w|]|]; cbn in *; try discriminate H1; injection H1 as E1 E2 E3; rewrite E1, E2, E3; reflexivity.
    - destruct (width_in W (p_wid p * sigma2fwhm)) as [[w|]|]; cbn in *; try discriminate H1; injection H1 as E1 E2 E3; rewrite E1, E2, E3; reflexivity. }
  destruct (to_internal W i p HW Hp) as (q1 & R1 & A1 & P1 & S1 & W1).
  destruct (from_internal W o q1 HW A1) as (q2 & R2 & A2 & P2 & S2 & W2).
  destruct (to_internal W o q2 HW A2) as (q3 & R3 & A3 & P3' & S3 & W3).
  assert (E31 : q3 = q1).
  { assert (K : p_wid q3 = p_wid q1).
    { rewrite W2 in W3. destruct A3 as [_ A3], A1 as [_ A1]. cbn in A3, A1.
      assert (V : width_out W Pwa (p_wid q3) = width_out W Pwa (p_wid q1) \/ p_wid q3 = p_wid q1).
      { destruct o; auto. left. rewrite !sigma_out in W3. apply (f_equal (fun x => x * sigma2fwhm)) in W3.
        rewrite !s2f_div in W3. exact W3. }
      destruct V as [V|V]; [|exact V].
      pose proof (in_out W HW (p_wid q3) A3) as I3. pose proof (in_out W HW (p_wid q1) A1) as I1.
      rewrite V, I1 in I3. congruence. }
    destruct q3, q1; cbn in *; congruence. }
  subst q3.
  destruct (from_internal W i q1 HW A1) as (q4 & R4 & A4 & P4 & S4 & W4).
  assert (E4 : q4 = p).
  { destruct q4, p; cbn in *; congruence. }
  subst q4.
  destruct i, o.
  - assert (EE : q1 = p) by (destruct q1, p; cbn in *; congruence). subst q1.
    exists q2. split; [exact R2|split; [exact A2|exact R3]].
  - assert (EE : q1 = p) by (destruct q1, p; cbn in *; congruence). subst q1.
    exists q2. split; [exact R2|split; [exact A2|exact R3]].
  - assert (EE : q1 = p) by (destruct q1, p; cbn in *; congruence). subst q1.
    exists q2. split; [exact R2|split; [exact A2|exact R3]].
  - exists q1. split; [exact R1|split; [exact A1|exact R4]].
  - exists p. split; [apply Same; discriminate|split; [exact Hp|apply Same; discriminate]].
  - exists q2. split; [|split; [exact A2|]].
    + unfold returns. rewrite (Via ltac:(discriminate) ltac:(discriminate) ltac:(discriminate) q1 R1). congruence.
    + unfold returns, transform in R3 |- *. cbn [fmt_eqb andb negb] in R3 |- *.
      destruct (width_in W (p_wid q2 * sigma2fwhm)) as [[w|]|]; cbn [bind option_map] in *; [|discriminate|discriminate].
      change (width_out W Internal w) with w in R3.
      injection R3 as E1 E2 E3. rewrite E2, W1. congruence.
  - exists q1. split; [exact R1|split; [exact A1|exact R4]].
  - exists q2. split; [|split; [exact A2|]].
    + unfold returns. rewrite (Via ltac:(discriminate) ltac:(discriminate) ltac:(discriminate) q1 R1). congruence.
    + unfold returns, transform in R3 |- *. cbn [fmt_eqb andb negb] in R3 |- *.
      destruct (width_in W (p_wid q2)) as [[w|]|]; cbn [bind option_map] in *; [|discriminate|discriminate].
      change (width_out W Internal w) with w in R3.
      injection R3 as E1 E2 E3. rewrite E2, W1. congruence.
  - exists p. split; [apply Same; discriminate|split; [exact Hp|apply Same; discriminate]].
Qed.
Print Assumptions C23_round_trip.

(** Widths and sigmas agree: FWHM = 2 sqrt(2 ln 2) sigma. *)
Theorem C23_fwhm_sigma :
  forall W p, 0 < W -> admissible W Pwa p ->
    transform W Pwa MuSigmaArea p = Ok (p_pos p, Some (p_wid p / (2 * sqrt (2 * ln 2))), p_area p).
Proof.
  intros W p HW [Ha Hw]. unfold transform. cbn [fmt_eqb andb negb]. rewrite width_in_ok by (cbn in Hw; lra).
  cbn [bind option_map]. rewrite sigma_out, out_asin by (cbn in Hw; lra). cbn in Hw. rewrite Rabs_pos_eq by lra. reflexivity.
Qed.
Print Assumptions C23_fwhm_sigma.

Theorem C23_too_wide_rejected :
  forall W p, 0 < W ->
    (W < p_wid p -> forall o, o <> Pwa -> transform W Pwa o p = Err TransformError) /\
    (W < p_wid p * sigma2fwhm -> forall o, o <> MuSigmaArea -> transform W MuSigmaArea o p = Err TransformError).
Proof.
  intros W p HW. split; intros H o Ho; unfold transform, width_in.
  - destruct o; try congruence; cbn; destruct (Rlt_dec W (p_wid p)); auto; lra.
  - destruct o; try congruence; cbn; destruct (Rlt_dec W (p_wid p * sigma2fwhm)); auto; lra.
Qed.
Print Assumptions C23_too_wide_rejected.

(** A negative width is not rejected: it is silently replaced by its absolute value,
    and below -maxwidth by NaN. *)
Theorem C76_negative_width_refuted :
  (exists W p q, 0 < W /\ p_wid p < 0 /\ returns (transform W Pwa Internal p) q /\
     transform W Internal Pwa q = Ok (p_pos p, Some (- p_wid p), p_area p)) /\
  (exists W p, 0 < W /\ transform W Pwa Internal p = Ok (p_pos p, None, p_area p)).
Proof.
  split.
  - exists 2, (P3 1 (-1) 1), (P3 1 (asin (2 * (-1) ^ 2 / 2 ^ 2 - 1)) 1). split; [lra|]. split; [cbn; lra|].
    split.
    + unfold returns, transform. cbn [fmt_eqb andb negb p_wid p_pos p_area]. rewrite width_in_ok by lra. reflexivity.
    + unfold transform. cbn [fmt_eqb andb negb p_wid p_pos p_area].
      rewrite normal_id by (pose proof (asin_bound (2 * (-1) ^ 2 / 2 ^ 2 - 1)); lra).
      rewrite out_asin by lra. rewrite Rabs_left by lra. rewrite Rabs_pos_eq by lra. reflexivity.
  - exists 1, (P3 1 (-3) 1). split; [lra|]. unfold transform, width_in. cbn [fmt_eqb andb negb p_wid p_pos p_area].
    destruct (Rlt_dec 1 (-3)); [lra|]. destruct (Rle_dec (- (1)) (-3)); [lra|]. reflexivity.
Qed.
Print Assumptions C76_negative_width_refuted.

Example C23_nonvacuous : admissible (7/10) Pwa (P3 3 (1/2) 4).
Proof. split; cbn; lra. Qed.

(** ** C25 *)
Theorem C25_gaussian_jacobian_refuted :
  forall W p r free, gaussian_jacobian W p r free = Err AttributeError.
Proof. intros W p r [[f0 f1] f2]. reflexivity. Qed.
Print Assumptions C25_gaussian_jacobian_refuted.

(** ** C29 *)
(** The Gaussian given by position mu, FWHM w and area a. *)
Theorem C29_width_and_area_meaning :
  forall W mu w a, 0 < W -> 0 < w <= W -> 0 <= a ->
    exists q h, returns (transform W Pwa Internal (P3 mu w a)) q /\
      gaussian_value W q mu = Some h /\
      h = a / (w / (2 * sqrt (2 * ln 2)) * sqrt (2 * PI)) /\
      (forall r, exists v, gaussian_value W q r = Some v /\ v <= h) /\
      (0 < a -> forall r, gaussian_value W q r = Some (h / 2) <-> (r = mu - w / 2 \/ r = mu + w / 2)).
Proof.
  intros W mu w a HW Hw Ha.
  assert (Adm : admissible W Pwa (P3 mu w a)) by (split; cbn; lra).
  destruct (to_internal W Pwa _ HW Adm) as (q & R1 & A1 & Pq & Sq & Wq). cbn in Pq, Sq, Wq.
  change (width_out W Pwa (p_wid q) = w) in Wq.
  assert (SG : sigma_of W q = w / sigma2fwhm) by (unfold sigma_of; rewrite sigma_out, Wq; reflexivity).
  pose proof s2f_pos as S0.
  assert (SP : 0 < sigma_of W q).
  { rewrite SG. unfold Rdiv. apply Rmult_lt_0_compat; [lra|]. now apply Rinv_0_lt_compat. }
  assert (D : degenerate q = false).
  { apply degenerate_false. pose proof (sinp_nonneg (p_wid q)) as N. destruct (Rle_lt_or_eq_dec _ _ N) as [L|E]; [exact L|].
    exfalso. pose proof (sigma_sqr W HW q) as S2. rewrite <- E in S2. pose proof ln2_pos.
    replace (W ^ 2 * (0 / 2) / (8 * ln 2)) with 0 in S2 by (field; lra).
    assert (0 < sigma_of W q ^ 2) by (apply pow_lt; exact SP). lra. }
  assert (Vr : forall r, gaussian_value W q r = Some (normal_curve mu (w / sigma2fwhm) a r)).
  { intros r. rewrite gaussian_curve by assumption. rewrite Pq, Sq, SG, Rabs_pos_eq by exact Ha. reflexivity. }
  assert (Q2 : 0 < sqrt (2 * PI)) by (apply sqrt_lt_R0; pose proof PI_RGT_0; lra).
  set (h := a / (w / sigma2fwhm * sqrt (2 * PI))).
  assert (H0 : normal_curve mu (w / sigma2fwhm) a mu = h).
  { unfold normal_curve. replace (- (mu - mu) ^ 2 / (2 * (w / sigma2fwhm) ^ 2)) with 0.
    - rewrite exp_0. unfold h. ring.
    - field. split; lra. }
  assert (Hh : 0 <= h).
  { unfold h, Rdiv. apply Rmult_le_pos; [exact Ha|]. left. apply Rinv_0_lt_compat. apply Rmult_lt_0_compat; [|exact Q2].
    pose proof SP as SP0; rewrite SG in SP0; exact SP0. }
  assert (Form : forall r, normal_curve mu (w / sigma2fwhm) a r = h * exp (- (4 * ln 2 * ((r - mu) ^ 2 / w ^ 2)))).
  { intros r. unfold normal_curve. fold h. f_equal. f_equal.
    replace ((w / sigma2fwhm) ^ 2) with (w ^ 2 / sigma2fwhm ^ 2) by (field; lra). rewrite s2f_sqr. pose proof ln2_pos. field. split; lra. }
  exists q, h. split; [exact R1|]. split; [rewrite Vr, H0; reflexivity|]. split; [reflexivity|]. split.
  - intros r. exists (normal_curve mu (w / sigma2fwhm) a r). split; [apply Vr|]. rewrite Form.
    rewrite <- (Rmult_1_r h) at 2. apply Rmult_le_compat_l; [exact Hh|]. rewrite <- exp_0.
    assert (K : - (4 * ln 2 * ((r - mu) ^ 2 / w ^ 2)) <= 0).
    { pose proof ln2_pos. assert (0 <= (r - mu) ^ 2 / w ^ 2).
      { unfold Rdiv. apply Rmult_le_pos; [apply pow2_ge_0|]. left. apply Rinv_0_lt_compat. apply pow_lt. lra. }
      assert (0 <= 4 * ln 2 * ((r - mu) ^ 2 / w ^ 2)) by (apply Rmult_le_pos; lra). lra. }
    destruct K as [K|K]; [left; now apply exp_increasing|right; now rewrite K].
  - intros Hp r. rewrite Vr, Form.
    assert (Hpos : 0 < h).
    { unfold h, Rdiv. apply Rmult_lt_0_compat; [exact Hp|]. apply Rinv_0_lt_compat. apply Rmult_lt_0_compat; [|exact Q2].
      pose proof SP as SP0; rewrite SG in SP0; exact SP0. }
    assert (E2 : exp (- ln 2) = / 2) by (rewrite exp_Ropp, exp_ln by lra; reflexivity).
    pose proof ln2_pos as L2.
    split.
    + intros E. injection E as E. unfold Rdiv in E. apply Rmult_eq_reg_l in E; [|lra].
      rewrite <- E2 in E. apply exp_inv in E.
      assert (F : 4 * ((r - mu) ^ 2 * / w ^ 2) = 1).
      { apply Rmult_eq_reg_l with (ln 2); [|lra]. apply Ropp_eq_compat in E. rewrite !Ropp_involutive in E. rewrite Rmult_1_r. transitivity (4 * ln 2 * ((r - mu) ^ 2 * / w ^ 2)); [ring|exact E]. }
      assert (G : (r - mu) ^ 2 = (w / 2) ^ 2).
      { apply Rmult_eq_reg_l with (4 * / w ^ 2).
        - replace (4 * / w ^ 2 * (w / 2) ^ 2) with 1 by (field; lra). lra.
        - assert (0 < / w ^ 2) by (apply Rinv_0_lt_compat, pow_lt; lra). lra. }
      assert (K : (r - mu - w / 2) * (r - mu + w / 2) = 0) by (replace ((r - mu - w / 2) * (r - mu + w / 2)) with ((r - mu) ^ 2 - (w / 2) ^ 2) by field; lra).
      apply Rmult_integral in K. destruct K; [right|left]; lra.
    + intros E. f_equal. change (h * exp (- (4 * ln 2 * ((r - mu) ^ 2 / w ^ 2))) = h * / 2). f_equal.
      rewrite <- E2. f_equal. f_equal.
      destruct E as [-> | ->]; field; lra.
Qed.
Print Assumptions C29_width_and_area_meaning.

(** Every internal width parameter stands for a FWHM between 0 and maxwidth, and
    the GaussianOverR curve is the Gaussian divided by |r|. *)
Theorem C29_width_bounded :
  forall W p, 0 < W -> exists w, transform W Internal Pwa p = Ok (p_pos p, Some w, Rabs (p_area p)) /\ 0 <= w <= W.
Proof.
  intros W p HW. eexists. split; [reflexivity|]. apply fwhm_range. exact HW.
Qed.
Print Assumptions C29_width_bounded.

Theorem C29_over_r :
  forall W p r, 0 < W -> r <> 0 ->
    gor_value W p r = option_map (fun v => v / Rabs r) (gaussian_value W p r).
Proof.
  intros W p r HW Hr. destruct (degenerate p) eqn:D.
  - unfold gor_value, gaussian_value. rewrite D. reflexivity.
  - rewrite gaussian_curve, gor_curve by assumption. reflexivity.
Qed.
Print Assumptions C29_over_r.

Example C29_nonvacuous : 0 < 7/10 /\ 0 < 1/2 <= 7/10 /\ 0 <= 5.
Proof. lra. Qed.

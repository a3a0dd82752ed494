(** Property C29, continued: the area parameter is the area under the curve. *)
From Coq Require Import Reals Lra Psatz.
From Coquelicot Require Import Coquelicot.
From Verif Require Import Prelude PeakFuncs PeakFuncsProofs PeakFuncsMore PeakFuncsProps GaussIntegral.
Open Scope R_scope.

Lemma G_odd t : G (- t) = - G t.
Proof.
  assert (D : forall u, is_derive (fun v => G (- v) + G v) u 0).
  { intros u. evar_last. { apply (is_derive_plus (fun v => G (- v)) G); [apply (is_derive_comp G Ropp u (gs (- u)) (-1)); [apply G_derive|]|apply G_derive].
      auto_derive; [exact I|ring]. }
    unfold plus, scal; cbn; unfold mult; cbn. unfold gs. replace ((- u) ^ 2) with (u ^ 2) by ring. ring. }
  destruct (MVT_gen (fun v => G (- v) + G v) 0 t (fun _ => 0)) as (c & _ & E).
  - intros; apply D.
  - intros x _. apply derivable_continuous_pt. exists 0. apply is_derive_Reals, D.
  - assert (Z : G 0 = 0) by (exact (RInt_point (V := R_CompleteNormedModule) 0 gs)). rewrite Ropp_0, Z in E. lra.
Qed.
Lemma G_lim_m : is_lim G m_infty (- (sqrt PI / 2)).
Proof.
  apply (is_lim_ext (fun t => - G (- t))); [intros t; rewrite G_odd; ring|].
  apply (is_lim_opp (fun t => G (- t)) m_infty (Finite (sqrt PI / 2))).
  apply (is_lim_comp G Ropp m_infty (Finite (sqrt PI / 2)) p_infty); [apply G_lim|apply (is_lim_opp (fun t => t) m_infty m_infty), is_lim_id|].
  exists 0. intros; discriminate.
Qed.

Section Curve.
Variables mu s a : R.
Hypothesis Hs : 0 < s.
Definition prim (r : R) : R := a / sqrt PI * G ((r - mu) / (s * sqrt 2)).
Lemma sqrt2_pos : 0 < sqrt 2. Proof. apply sqrt_lt_R0. lra. Qed.
Lemma sqrtPI_pos : 0 < sqrt PI. Proof. apply sqrt_lt_R0, PI_RGT_0. Qed.
Lemma prim_derive (r : R) : is_derive prim r (normal_curve mu s a r).
Proof.
  pose proof sqrt2_pos. pose proof sqrtPI_pos.
  unfold prim. evar_last.
  { apply (is_derive_scal (fun r => G ((r - mu) / (s * sqrt 2))) r (a / sqrt PI)). apply (is_derive_comp G (fun r => (r - mu) / (s * sqrt 2)) r (gs ((r - mu) / (s * sqrt 2))) (/ (s * sqrt 2))); [apply G_derive|].
    auto_derive; [exact I|]. field. split; lra. }
  unfold scal; cbn; unfold mult; cbn. unfold gs, normal_curve. 
  replace (- ((r - mu) / (s * sqrt 2)) ^ 2) with (- (r - mu) ^ 2 / (2 * s ^ 2)).
  2:{ rewrite <- (sqrt_sqrt 2) at 1 by lra. field. split; lra. }
  rewrite sqrt_mult_alt by lra. generalize (exp (- (r - mu) ^ 2 / (2 * s ^ 2))). intros e. field. repeat split; lra.
Qed.
Lemma curve_cont r : continuous (normal_curve mu s a) r.
Proof. apply (ex_derive_continuous (normal_curve mu s a)). unfold normal_curve. auto_derive. exact I. Qed.
Lemma curve_area : is_RInt_gen (normal_curve mu s a) (Rbar_locally m_infty) (Rbar_locally p_infty) a.
Proof.
  pose proof sqrt2_pos. pose proof sqrtPI_pos.
  assert (C : 0 < / (s * sqrt 2)) by (apply Rinv_0_lt_compat, Rmult_lt_0_compat; lra).
  assert (LP : is_lim (fun r => (r - mu) / (s * sqrt 2)) p_infty p_infty).
  { apply (is_lim_ext (fun r => / (s * sqrt 2) * (r + - mu))); [intros; unfold Rdiv; ring|]. 
    replace p_infty with (Rbar_mult (/ (s * sqrt 2)) p_infty) at 2 by (cbn; destruct (Rle_dec 0 (/ (s * sqrt 2))) as [L|L]; [destruct (Rle_lt_or_eq_dec 0 _ L); [reflexivity|lra]|lra]).
    apply is_lim_scal_l. apply (is_lim_plus (fun r => r) (fun _ => - mu) p_infty p_infty (- mu)); [apply is_lim_id|apply is_lim_const|reflexivity]. }
  assert (LM : is_lim (fun r => (r - mu) / (s * sqrt 2)) m_infty m_infty).
  { apply (is_lim_ext (fun r => / (s * sqrt 2) * (r + - mu))); [intros; unfold Rdiv; ring|]. 
    replace m_infty with (Rbar_mult (/ (s * sqrt 2)) m_infty) at 2 by (cbn; destruct (Rle_dec 0 (/ (s * sqrt 2))) as [L|L]; [destruct (Rle_lt_or_eq_dec 0 _ L); [reflexivity|lra]|lra]).
    apply is_lim_scal_l. apply (is_lim_plus (fun r => r) (fun _ => - mu) m_infty m_infty (- mu)); [apply is_lim_id|apply is_lim_const|reflexivity]. }
  apply (is_RInt_gen_ext (Derive prim)).
  { apply filter_forall. intros ab x _. apply is_derive_unique, prim_derive. }
  replace a with (a / 2 - - (a / 2)) at 1 by field.
  apply (is_RInt_gen_Derive (Fa := Rbar_locally m_infty) (Fb := Rbar_locally p_infty) prim (- (a / 2)) (a / 2)).
  - apply (filter_forall (F := filter_prod _ _)). intros ab x _. eexists. apply prim_derive.
  - apply filter_forall. intros ab x _. apply (continuous_ext (normal_curve mu s a)); [intros; symmetry; apply is_derive_unique, prim_derive|apply curve_cont].
  - change (is_lim prim m_infty (- (a / 2))). unfold prim.
    replace (Finite (- (a / 2))) with (Rbar_mult (a / sqrt PI) (- (sqrt PI / 2))) by (cbn; f_equal; field; lra).
    apply is_lim_scal_l. apply (is_lim_comp G _ m_infty _ m_infty); [apply G_lim_m|exact LM|]. exists 0. intros; discriminate.
  - change (is_lim prim p_infty (a / 2)). unfold prim.
    replace (Finite (a / 2)) with (Rbar_mult (a / sqrt PI) (sqrt PI / 2)) by (cbn; f_equal; field; lra).
    apply is_lim_scal_l. apply (is_lim_comp G _ p_infty _ p_infty); [apply G_lim|exact LP|]. exists 0. intros; discriminate.
Qed.
End Curve.

(** The curve of a Gaussian peak given by position mu, full width w and area a encloses the
    area a; so does the curve of GaussianOverR after multiplication by |r|, and so do the
    curves for any internal parameters, with the area |p_area|. *)
Theorem C29_area_is_the_integral :
  forall W mu w a : R, 0 < W -> 0 < w <= W -> 0 <= a ->
    exists (q : pars3) (f : R -> R), returns (transform W Pwa Internal (P3 mu w a)) q /\
      (forall r, gaussian_value W q r = Some (f r)) /\
      (forall r, r <> 0 -> exists v, gor_value W q r = Some v /\ v * Rabs r = f r) /\
      is_RInt_gen f (Rbar_locally m_infty) (Rbar_locally p_infty) a.
Proof.
  intros W mu w a HW Hw Ha. destruct (C29_width_and_area_meaning W mu w a HW Hw Ha) as (q & h & Rq & _).
  assert (Adm : admissible W Pwa (P3 mu w a)) by (split; cbn; lra).
  destruct (to_internal W Pwa _ HW Adm) as (q' & R1 & A1 & Pq & Sq & Wq). cbn in Pq, Sq, Wq.
  assert (q' = q) as ->. { unfold returns in *. rewrite Rq in R1. destruct q, q'. cbn in *. congruence. }
  change (width_out W Pwa (p_wid q) = w) in Wq.
  assert (SG : sigma_of W q = w / sigma2fwhm) by (unfold sigma_of; rewrite sigma_out, Wq; reflexivity).
  pose proof s2f_pos as S0.
  assert (SP : 0 < sigma_of W q). { rewrite SG. apply Rdiv_lt_0_compat; lra. }
  assert (D : degenerate q = false).
  { apply degenerate_false. pose proof (sinp_nonneg (p_wid q)) as N. destruct (Rle_lt_or_eq_dec _ _ N) as [L|E]; [exact L|].
    exfalso. pose proof (sigma_sqr W HW q) as S2. rewrite <- E in S2. pose proof ln2_pos.
    replace (W ^ 2 * (0 / 2) / (8 * ln 2)) with 0 in S2 by (field; lra).
    assert (0 < sigma_of W q ^ 2) by (apply pow_lt; exact SP). lra. }
  exists q, (normal_curve mu (sigma_of W q) a). split; [exact Rq|].
  assert (V : forall r, gaussian_value W q r = Some (normal_curve mu (sigma_of W q) a r)).
  { intros r. rewrite gaussian_curve by assumption. rewrite Pq, Sq, Rabs_pos_eq by exact Ha. reflexivity. }
  split; [exact V|]. split; [|now apply curve_area].
  intros r Hr. rewrite C29_over_r, V by assumption. exists (normal_curve mu (sigma_of W q) a r / Rabs r). split; [reflexivity|]. field. now apply Rabs_no_R0.
Qed.
Print Assumptions C29_area_is_the_integral.
Theorem C29_area_of_any_peak :
  forall W p, 0 < W -> degenerate p = false ->
    exists f : R -> R, (forall r, gaussian_value W p r = Some (f r)) /\
      is_RInt_gen f (Rbar_locally m_infty) (Rbar_locally p_infty) (Rabs (p_area p)).
Proof.
  intros W p HW D. exists (normal_curve (p_pos p) (sigma_of W p) (Rabs (p_area p))). split; [intros r; now rewrite gaussian_curve|].
  apply curve_area. now apply sigma_pos.
Qed.
Print Assumptions C29_area_of_any_peak.

(** Position 2, full width 1/2, area 5, with maxwidth 7/10. *)
Example C29_area_nonvacuous : exists q f, returns (transform (7/10) Pwa Internal (P3 2 (1/2) 5)) q /\ (forall r, gaussian_value (7/10) q r = Some (f r)) /\ is_RInt_gen f (Rbar_locally m_infty) (Rbar_locally p_infty) 5.
Proof. destruct (C29_area_is_the_integral (7/10) 2 (1/2) 5) as (q & f & H1 & H2 & _ & H3); [lra|lra|lra|]. now exists q, f. Qed.

(** Properties C24, C25 (second half) and C26: Jacobians and transformation
    gradients are derivatives. *)
From Coq Require Import Reals Lra Psatz.
From Coquelicot Require Import Coquelicot.
From Verif Require Import Prelude PeakFuncs PeakFuncsProofs PeakFuncsMore PeakFuncsProps.
Open Scope R_scope.

(** [f], which may be undefined at some points, is finite near x and has derivative l at x. *)
Definition has_derivative (f : R -> xR) (x l : R) : Prop :=
  exists g eps, 0 < eps /\ (forall q, Rabs (q - x) < eps -> f q = Some (g q)) /\ derivable_pt_lim g x l.

(** Parameter i of p, and p with parameter i replaced. *)
Definition get_par (i : nat) (p : pars3) : R := match i with 0%nat => p_pos p | 1%nat => p_wid p | _ => p_area p end.
Definition with_par (i : nat) (p : pars3) (q : R) : pars3 :=
  match i with 0%nat => P3 q (p_wid p) (p_area p) | 1%nat => P3 (p_pos p) q (p_area p) | _ => P3 (p_pos p) (p_wid p) q end.
Definition is_free (i : nat) (free : bool * bool * bool) : bool :=
  let '(f0, f1, f2) := free in match i with 0%nat => f0 | 1%nat => f1 | _ => f2 end.

(** What a correct Jacobian is: the i-th entry is the partial derivative of the value
    with respect to parameter i when that parameter is free, and Python's None when it
    is not. *)
Definition correct_jacobian (value : pars3 -> R -> xR) (p : pars3) (r : R) (free : bool * bool * bool)
    (jac : list (option R)) : Prop :=
  length jac = 3%nat /\
  forall i, (i < 3)%nat ->
    (is_free i free = false -> nth_error jac i = Some None) /\
    (is_free i free = true -> exists d, nth_error jac i = Some (Some d) /\
       has_derivative (fun q => value (with_par i p q) r) (get_par i p) d).

Lemma sin_open q : 0 < sin q + 1 -> exists eps, 0 < eps /\ forall x, Rabs (x - q) < eps -> 0 < sin x + 1.
Proof.
  intros H. destruct (continuity_sin q (sin q + 1) H) as (e & He & C).
  exists e. split; [exact He|]. intros x Hx. destruct (Req_dec x q) as [->|Hn]; [exact H|].
  assert (D : R_dist (sin x) (sin q) < sin q + 1).
  { apply C. split; [split; [exact I|auto]|exact Hx]. }
  unfold R_dist in D. apply Rabs_def2 in D. lra.
Qed.

Section W.
Variable W : R.
Hypothesis HW : 0 < W.

(** Common shape of both curves: K/(sqrt s) * exp(-(r-mu)^2/(c2 s)), K >= 0 not
    depending on position and width. *)
Definition shape (K c mu q r : R) := K / sqrt (sin q + 1) * exp (- (r - mu) ^ 2 / (c * (sin q + 1))).

Lemma shape_mu K c mu q r : 0 < sin q + 1 -> 0 < c ->
  is_derive (fun m => shape K c m q r) mu
    (-2 * (exp (- (mu - r) ^ 2 / (c * (sin q + 1))) / sqrt (sin q + 1)) * (mu - r) * K / (c * (sin q + 1))).
Proof.
  intros Hs Hc. unfold shape. auto_derive; [auto|].
  assert (0 < sqrt (sin q + 1)) by (now apply sqrt_lt_R0).
  replace (- (mu - r) ^ 2 / (c * (sin q + 1))) with (- ((r + - mu) * ((r + - mu) * 1)) * / (c * (sin q + 1))) by (field; lra).
  field. repeat split; lra.
Qed.

Lemma shape_q K c mu q r : 0 < sin q + 1 -> 0 < c ->
  is_derive (fun x => shape K c mu x r) q
    (- (exp (- (mu - r) ^ 2 / (c * (sin q + 1))) / sqrt (sin q + 1)) * K * cos q * (c * (sin q + 1) - 2 * (mu - r) ^ 2)
     / (2 * c * (sin q + 1) ^ 2)).
Proof.
  intros Hs Hc. unfold shape. assert (St : 0 < sqrt (sin q + 1)) by (now apply sqrt_lt_R0).
  auto_derive; [repeat split; auto; nra|].
  replace (- (mu - r) ^ 2 / (c * (sin q + 1))) with (- ((r + - mu) * ((r + - mu) * 1)) * / (c * (sin q + 1))) by (field; lra).
  set (E := exp _). 
  assert (T : sin q + 1 = sqrt (sin q + 1) * sqrt (sin q + 1)) by (rewrite sqrt_sqrt; lra).
  set (t := sqrt (sin q + 1)) in *. clearbody E. rewrite T. field. split; lra.
Qed.

Lemma has_derivative_of (f : R -> xR) g x l eps : 0 < eps -> (forall q, Rabs (q - x) < eps -> f q = Some (g q)) ->
  is_derive g x l -> has_derivative f x l.
Proof. intros H1 H2 H3. exists g, eps. split; [exact H1|]. split; [exact H2|]. now apply is_derive_Reals. Qed.

Lemma is_derive_eq (g : R -> R) (x l l' : R) : is_derive g x l -> l = l' -> is_derive g x l'.
Proof. intros H <-. exact H. Qed.

Lemma abs_derive a : a <> 0 -> is_derive Rabs a (if Rle_dec 0 a then 1 else -1).
Proof.
  intros Ha. apply is_derive_Reals. destruct (Rle_dec 0 a).
  - apply Rabs_derive_1. lra.
  - apply Rabs_derive_2. lra.
Qed.

Lemma abs_mul_derive E a : a <> 0 -> is_derive (fun x => Rabs x * E) a (if Rle_dec 0 a then E else - E).
Proof.
  intros Ha. pose proof (abs_derive a Ha) as H. pose proof (is_derive_scal Rabs a E _ H) as H2.
  apply (is_derive_ext (fun x => E * Rabs x)); [intros; apply Rmult_comm|].
  eapply is_derive_eq; [exact H2|]. destruct (Rle_dec 0 a); [apply Rmult_1_r|]. change (E * -1 = - E). ring.
Qed.

Lemma gor_shape p r : degenerate p = false -> r <> 0 ->
  gor_value W p r = Some (shape (Rabs (p_area p) / (Rabs r * c1 W)) (c2 W) (p_pos p) (p_wid p) r).
Proof.
  intros D Hr. unfold gor_value. rewrite D. destruct (Req_EM_T r 0); [contradiction|]. f_equal. unfold shape. f_equal.
  apply degenerate_false in D. assert (0 < sqrt (sin (p_wid p) + 1)) by (now apply sqrt_lt_R0).
  pose proof (c1_pos W HW). pose proof (Rabs_no_R0 r Hr). field. repeat split; lra.
Qed.
Lemma gau_shape p r : degenerate p = false ->
  gaussian_value W p r = Some (shape (Rabs (p_area p) / c1 W) (c2 W) (p_pos p) (p_wid p) r).
Proof.
  intros D. unfold gaussian_value. rewrite D. f_equal. unfold shape. f_equal.
  apply degenerate_false in D. assert (0 < sqrt (sin (p_wid p) + 1)) by (now apply sqrt_lt_R0).
  pose proof (c1_pos W HW). field. repeat split; lra.
Qed.

(** General argument for both functions: value = shape (|area| * k) ... *)
Lemma jac_correct (value : pars3 -> R -> xR) k p r free :
  (forall p, degenerate p = false -> value p r = Some (shape (Rabs (p_area p) * k) (c2 W) (p_pos p) (p_wid p) r)) ->
  degenerate p = false -> p_area p <> 0 ->
  let s := sin (p_wid p) + 1 in
  let d := p_pos p - r in
  let e := exp (- d ^ 2 / (c2 W * s)) * k / sqrt s in
  correct_jacobian value p r free
    [ if is_free 0 free then Some (-2 * e * d * Rabs (p_area p) / (c2 W * s)) else None;
      if is_free 1 free then Some (- e * Rabs (p_area p) * cos (p_wid p) * (c2 W * s - 2 * d ^ 2) / (2 * c2 W * s ^ 2)) else None;
      if is_free 2 free then Some (if Rle_dec 0 (p_area p) then e else - e) else None ].
Proof.
  intros V D Ha s d e. pose proof (c2_pos W HW) as C2. pose proof D as D'. apply degenerate_false in D'. fold s in D'.
  assert (St : 0 < sqrt s) by (now apply sqrt_lt_R0).
  split; [reflexivity|]. intros [|[|[|i]]] Hi; [| | |lia]; cbn [nth_error get_par with_par].
  - split; intros F; rewrite F; [reflexivity|]. eexists; split; [reflexivity|].
    apply (has_derivative_of _ (fun m => shape (Rabs (p_area p) * k) (c2 W) m (p_wid p) r) _ _ 1); [lra| |].
    + intros q _. apply (V (P3 q (p_wid p) (p_area p))). exact D.
    + eapply is_derive_eq; [apply shape_mu; assumption|]. fold s. fold d. unfold e. field. repeat split; lra.
  - split; intros F; rewrite F; [reflexivity|]. eexists; split; [reflexivity|].
    destruct (sin_open _ D') as (eps & He & Hop).
    apply (has_derivative_of _ (fun x => shape (Rabs (p_area p) * k) (c2 W) (p_pos p) x r) _ _ eps); [exact He| |].
    + intros q Hq. apply (V (P3 (p_pos p) q (p_area p))). apply degenerate_false. now apply Hop.
    + eapply is_derive_eq; [apply shape_q; assumption|]. fold s. fold d. unfold e. field. repeat split; lra.
  - split; intros F; rewrite F; [reflexivity|]. eexists; split; [reflexivity|].
    apply (has_derivative_of _ (fun x => Rabs x * e) _ _ 1); [lra| |].
    + intros q _. rewrite (V (P3 (p_pos p) (p_wid p) q)) by exact D. cbn [p_area p_pos p_wid]. f_equal. unfold shape, e.
      fold s. replace (- (r - p_pos p) ^ 2) with (- d ^ 2) by (unfold d; ring). field. lra.
    + now apply abs_mul_derive.
Qed.
End W.

(** ** C24 *)
Theorem C24_gaussianoverr_jacobian :
  forall W p r free, 0 < W -> degenerate p = false -> r <> 0 -> p_area p <> 0 ->
    exists jac, gor_jacobian W p r free = Some jac /\ correct_jacobian (gor_value W) p r free jac.
Proof.
  intros W p r free HW D Hr Ha.
  pose proof (jac_correct W HW (gor_value W) (/ (Rabs r * c1 W)) p r free) as J. cbv zeta in J.
  specialize (J ltac:(intros; apply gor_shape; assumption) D Ha).
  unfold gor_jacobian. destruct free as [[f0 f1] f2]. rewrite D.
  destruct (negb f0 && negb f1 && negb f2) eqn:F.
  - eexists. split; [reflexivity|]. destruct f0, f1, f2; try discriminate. exact J.
  - destruct (Req_EM_T r 0); [contradiction|]. eexists. split; [reflexivity|].
    cbn [is_free] in J. revert J.
    replace (exp (- (p_pos p - r) ^ 2 / (c2 W * (sin (p_wid p) + 1))) / (Rabs r * c1 W * sqrt (sin (p_wid p) + 1)))
      with (exp (- (p_pos p - r) ^ 2 / (c2 W * (sin (p_wid p) + 1))) * / (Rabs r * c1 W) / sqrt (sin (p_wid p) + 1)).
    + auto.
    + apply degenerate_false in D. assert (0 < sqrt (sin (p_wid p) + 1)) by (now apply sqrt_lt_R0).
      pose proof (c1_pos W HW). pose proof (Rabs_no_R0 r Hr). field. repeat split; lra.
Qed.
Print Assumptions C24_gaussianoverr_jacobian.

(** At area 0 the value has a kink in the area; the code then returns the derivative
    from the right (towards positive areas). *)
Theorem C24_zero_area :
  forall W p r, 0 < W -> degenerate p = false -> r <> 0 -> p_area p = 0 ->
    exists d, gor_jacobian W p r (false, false, true) = Some [None; None; Some d] /\
      forall a, 0 <= a -> gor_value W (with_par 2 p a) r = Some (d * a).
Proof.
  intros W p r HW D Hr Ha. unfold gor_jacobian. cbn [negb andb]. rewrite D.
  destruct (Req_EM_T r 0) as [|_]; [contradiction|]. destruct (Rle_dec 0 (p_area p)) as [_|N]; [|exfalso; apply N; lra].
  eexists. split; [reflexivity|]. intros a H. rewrite gor_shape by assumption.
  cbn [p_area p_pos p_wid with_par]. rewrite Rabs_pos_eq by exact H. unfold shape. f_equal.
  replace (- (r - p_pos p) ^ 2) with (- (p_pos p - r) ^ 2) by ring.
  apply degenerate_false in D. assert (0 < sqrt (sin (p_wid p) + 1)) by (now apply sqrt_lt_R0).
  pose proof (c1_pos W HW). pose proof (Rabs_no_R0 r Hr). field. repeat split; lra.
Qed.
Print Assumptions C24_zero_area.

Example C24_nonvacuous : degenerate (P3 3 0 2) = false /\ (2 : R) <> 0 /\ p_area (P3 3 0 2) <> 0.
Proof. split; [apply degenerate_false; cbn; rewrite sin_0; lra|]. cbn. split; lra. Qed.

(** ** C25 (second half): the formulas behind the failing line are the derivatives;
    only the test in front of them is wrong. *)
Theorem C25_formulas_partial :
  forall W p r free, 0 < W -> degenerate p = false -> p_area p <> 0 ->
    exists jac, gaussian_jacobian_body W p r free = Some jac /\ correct_jacobian (gaussian_value W) p r free jac.
Proof.
  intros W p r free HW D Ha.
  pose proof (jac_correct W HW (gaussian_value W) (/ c1 W) p r free) as J. cbv zeta in J.
  specialize (J ltac:(intros; apply gau_shape; assumption) D Ha).
  unfold gaussian_jacobian_body. destruct free as [[f0 f1] f2]. rewrite D.
  eexists. split; [reflexivity|]. cbn [is_free] in J. revert J.
  replace (exp (- (p_pos p - r) ^ 2 / (c2 W * (sin (p_wid p) + 1))) / (c1 W * sqrt (sin (p_wid p) + 1)))
    with (exp (- (p_pos p - r) ^ 2 / (c2 W * (sin (p_wid p) + 1))) * / c1 W / sqrt (sin (p_wid p) + 1)).
  - auto.
  - apply degenerate_false in D. assert (0 < sqrt (sin (p_wid p) + 1)) by (now apply sqrt_lt_R0).
    pose proof (c1_pos W HW). field. repeat split; lra.
Qed.
Print Assumptions C25_formulas_partial.

(** ** C26 *)
(** Component a of transform's result, as a function of the parameters. *)
Definition component (a : nat) (res : result (R * xR * R)) : xR :=
  match res with
  | Ok (m, w, s) => match a with 0%nat => Some m | 1%nat => w | _ => Some s end
  | Err _ => None
  end.
(** Interior of the domain of a format. *)
Definition interior (W : R) (f : fmt) (p : pars3) : Prop :=
  0 < p_area p /\
  match f with
  | Internal => 0 < sin (p_wid p) + 1
  | Pwa => 0 < p_wid p < W
  | MuSigmaArea => 0 < p_wid p * sigma2fwhm < W
  end.

Lemma asin_derive W w : 0 < w < W ->
  is_derive (fun w => asin (2 * w ^ 2 / W ^ 2 - 1)) w (2 / sqrt (W ^ 2 - w ^ 2)).
Proof.
  intros H. assert (K : -1 < 2 * w ^ 2 / W ^ 2 - 1 < 1).
  { assert (0 < w ^ 2 / W ^ 2 < 1); [|unfold Rdiv in *; lra].
    assert (0 < W ^ 2) by (apply pow_lt; lra). split.
    - unfold Rdiv. apply Rmult_lt_0_compat; [apply pow_lt; lra|now apply Rinv_0_lt_compat].
    - apply Rmult_lt_reg_r with (W ^ 2); [assumption|]. unfold Rdiv. rewrite Rmult_assoc, Rinv_l by lra. nra. }
  eapply is_derive_eq.
  - apply (is_derive_comp asin (fun w => 2 * w ^ 2 / W ^ 2 - 1) w
             (1 / sqrt (1 - (2 * w ^ 2 / W ^ 2 - 1)²)) (4 * w / W ^ 2)).
    + apply is_derive_Reals. apply derive_pt_eq_1 with (derivable_pt_asin _ K). apply derive_pt_asin.
    + auto_derive; [auto|]. field. lra.
  - change (4 * w / W ^ 2 * (1 / sqrt (1 - (2 * w ^ 2 / W ^ 2 - 1)²)) = 2 / sqrt (W ^ 2 - w ^ 2)).
    assert (P : 0 < W ^ 2 - w ^ 2) by nra.
    assert (S : sqrt (1 - (2 * w ^ 2 / W ^ 2 - 1)²) = 2 * w / W ^ 2 * sqrt (W ^ 2 - w ^ 2)).
    { replace (1 - (2 * w ^ 2 / W ^ 2 - 1)²) with ((2 * w / W ^ 2) ^ 2 * (W ^ 2 - w ^ 2)) by (unfold Rsqr; field; lra).
      assert (0 < 2 * w / W ^ 2).
      { unfold Rdiv. apply Rmult_lt_0_compat; [lra|]. apply Rinv_0_lt_compat. apply pow_lt. lra. }
      rewrite sqrt_mult by (first [apply pow2_ge_0 | lra]). rewrite sqrt_pow2 by lra. reflexivity. }
    rewrite S. assert (0 < sqrt (W ^ 2 - w ^ 2)) by (now apply sqrt_lt_R0). field. repeat split; lra.
Qed.

Lemma fwhm_derive W q : 0 < W -> 0 < sin q + 1 ->
  is_derive (fun q => width_out W Pwa q) q (W / (2 * sqrt 2) * cos q / sqrt (1 + sin q)).
Proof.
  intros HW H. apply (is_derive_ext (fun q => W * sqrt ((sin q + 1) / 2))); [intros; symmetry; now apply fwhm_form|].
  auto_derive; [unfold Rdiv in *; lra|].
  assert (E : sqrt ((sin q + 1) * / 2) = sqrt (1 + sin q) / sqrt 2).
  { replace ((sin q + 1) * / 2) with ((1 + sin q) / 2) by field. apply sqrt_div; lra. }
  rewrite E. assert (0 < sqrt 2) by (apply sqrt_lt_R0; lra). assert (0 < sqrt (1 + sin q)) by (apply sqrt_lt_R0; lra).
  assert (T : sqrt 2 * sqrt 2 = 2) by (apply sqrt_sqrt; lra).
  transitivity (W * cos q * / (2 * (sqrt 2 * sqrt (1 + sin q))) * (sqrt 2 * sqrt 2) * / 2).
  - field. split; lra.
  - rewrite T. field. split; lra.
Qed.

Lemma sigma_derive W q : 0 < W -> 0 < sin q + 1 ->
  is_derive (fun q => width_out W MuSigmaArea q) q (W / (2 * sqrt 2 * sigma2fwhm) * cos q / sqrt (1 + sin q)).
Proof.
  intros HW H. pose proof s2f_pos.
  apply (is_derive_ext (fun q => / sigma2fwhm * width_out W Pwa q)); [intros; rewrite sigma_out; apply Rmult_comm|].
  eapply is_derive_eq; [apply is_derive_scal, fwhm_derive; assumption|].
  change (/ sigma2fwhm * (W / (2 * sqrt 2) * cos q / sqrt (1 + sin q)) = W / (2 * sqrt 2 * sigma2fwhm) * cos q / sqrt (1 + sin q)).
  assert (0 < sqrt 2) by (apply sqrt_lt_R0; lra). assert (0 < sqrt (1 + sin q)) by (apply sqrt_lt_R0; lra). field. repeat split; lra.
Qed.

(** Entry (a,b) of the returned matrix is d(new parameter a)/d(old parameter b), for
    every pair of different formats at every interior point. *)
Theorem C26_gradient_matrix :
  forall W i o p, 0 < W -> i <> o -> interior W i p ->
    exists g, transform_derivatives W i o p = Some g /\
      forall a b, (a < 3)%nat -> (b < 3)%nat ->
        has_derivative (fun q => component a (transform W i o (with_par b p q))) (get_par b p) (g a b).
Proof.
  intros W i o p HW Hio [Ha Hi].
  eexists. split. { unfold transform_derivatives. destruct i, o; try congruence; reflexivity. }
  intros a b La Lb.
  (* the result near p as three functions of the three parameters *)
  set (area' := fun x => match i with Internal => Rabs x | _ => x end).
  set (wid' := fun x => match i, o with
     | Internal, _ => width_out W o x
     | Pwa, Internal => asin (2 * x ^ 2 / W ^ 2 - 1)
     | MuSigmaArea, Internal => asin (2 * (x * sigma2fwhm) ^ 2 / W ^ 2 - 1)
     | Pwa, _ => x / sigma2fwhm
     | MuSigmaArea, _ => x * sigma2fwhm end).
  pose proof s2f_pos as S0.
  assert (T : exists eps, 0 < eps /\ forall m w s, Rabs (w - p_wid p) < eps ->
     transform W i o (P3 m w s) = Ok (m, Some (wid' w), area' s)).
  { destruct i.
    - exists 1. split; [lra|]. intros m w s _. destruct o; [congruence| |]; unfold transform, wid', area';
        cbn [fmt_eqb andb negb p_wid p_pos p_area]; unfold width_out; rewrite sin_normal; reflexivity.
    - exists (Rmin (p_wid p) (W - p_wid p)). split; [apply Rmin_pos; lra|]. intros m w s Hw.
      pose proof (Rmin_l (p_wid p) (W - p_wid p)). pose proof (Rmin_r (p_wid p) (W - p_wid p)). apply Rabs_def2 in Hw.
      destruct o; [|congruence|]; unfold transform, wid', area'; cbn [fmt_eqb andb negb p_wid p_pos p_area];
        rewrite width_in_ok by lra; [reflexivity|].
      cbn [bind option_map]. rewrite sigma_out, out_asin by lra. rewrite Rabs_pos_eq by lra. reflexivity.
    - exists (Rmin (p_wid p) (W / sigma2fwhm - p_wid p)).
      assert (p_wid p < W / sigma2fwhm).
      { apply Rmult_lt_reg_r with sigma2fwhm; [exact S0|]. rewrite s2f_div. lra. }
      assert (0 < p_wid p).
      { apply Rmult_lt_reg_r with sigma2fwhm; [exact S0|]. lra. }
      split; [apply Rmin_pos; lra|]. intros m w s Hw.
      pose proof (Rmin_l (p_wid p) (W / sigma2fwhm - p_wid p)). pose proof (Rmin_r (p_wid p) (W / sigma2fwhm - p_wid p)). apply Rabs_def2 in Hw.
      assert (0 < w * sigma2fwhm < W).
      { split; [apply Rmult_lt_0_compat; lra|]. rewrite <- (s2f_div W). apply Rmult_lt_compat_r; lra. }
      destruct o; [| |congruence]; unfold transform, wid', area'; cbn [fmt_eqb andb negb p_wid p_pos p_area];
        rewrite width_in_ok by lra; [reflexivity|].
      cbn [bind option_map]. rewrite out_asin by lra. rewrite Rabs_pos_eq by lra. reflexivity. }
  destruct T as (eps & He & T).
  assert (Dw : is_derive wid' (p_wid p) (width_gradient W i o (p_wid p))).
  { unfold wid', width_gradient. destruct i, o; try congruence.
    - apply fwhm_derive; assumption.
    - apply sigma_derive; assumption.
    - apply asin_derive. lra.
    - auto_derive; [auto|]. field. lra.
    - eapply is_derive_eq.
      + apply (is_derive_comp (fun w => asin (2 * w ^ 2 / W ^ 2 - 1)) (fun x => x * sigma2fwhm) (p_wid p)
             (2 / sqrt (W ^ 2 - (p_wid p * sigma2fwhm) ^ 2)) sigma2fwhm).
        * apply asin_derive. exact Hi.
        * auto_derive; [auto|ring].
      + change (sigma2fwhm * (2 / sqrt (W ^ 2 - (p_wid p * sigma2fwhm) ^ 2)) = 2 * sigma2fwhm / sqrt (W ^ 2 - (sigma2fwhm * p_wid p) ^ 2)).
        rewrite (Rmult_comm (p_wid p)). unfold Rdiv. ring.
    - auto_derive; [auto|]. ring. }
  assert (Da : is_derive area' (p_area p) 1).
  { unfold area'. destruct i.
    - eapply is_derive_eq; [apply abs_derive; lra|]. destruct (Rle_dec 0 (p_area p)); [reflexivity|lra].
    - auto_derive; auto.
    - auto_derive; auto. }
  assert (Near : Rabs (p_wid p - p_wid p) < eps) by (rewrite Rminus_eq_0, Rabs_R0; exact He).
  destruct b as [|[|[|b]]]; [| | |lia]; cbn [with_par get_par];
    destruct a as [|[|[|a]]]; try lia; cbn [Nat.eqb negb].
  - apply (has_derivative_of _ (fun q => q) _ _ 1); [lra|intros q _; now rewrite T by exact Near|auto_derive; auto].
  - apply (has_derivative_of _ (fun q => wid' (p_wid p)) _ _ 1); [lra|intros q _; now rewrite T by exact Near|auto_derive; auto].
  - apply (has_derivative_of _ (fun q => area' (p_area p)) _ _ 1); [lra|intros q _; now rewrite T by exact Near|auto_derive; auto].
  - apply (has_derivative_of _ (fun q => p_pos p) _ _ eps); [lra|intros q Hq; now rewrite T by exact Hq|auto_derive; auto].
  - apply (has_derivative_of _ wid' _ _ eps); [lra|intros q Hq; now rewrite T by exact Hq|exact Dw].
  - apply (has_derivative_of _ (fun q => area' (p_area p)) _ _ eps); [lra|intros q Hq; now rewrite T by exact Hq|auto_derive; auto].
  - apply (has_derivative_of _ (fun q => p_pos p) _ _ 1); [lra|intros q _; now rewrite T by exact Near|auto_derive; auto].
  - apply (has_derivative_of _ (fun q => wid' (p_wid p)) _ _ 1); [lra|intros q _; now rewrite T by exact Near|auto_derive; auto].
  - apply (has_derivative_of _ area' _ _ 1); [lra|intros q _; now rewrite T by exact Near|exact Da].
Qed.
Print Assumptions C26_gradient_matrix.

(** For internal parameters with a negative area (equivalent to, but not in, normal
    form) the matrix has +1 where the derivative is -1. *)
Theorem C77_negative_area_refuted :
  exists W p g, 0 < W /\ transform_derivatives W Internal Pwa p = Some g /\
    has_derivative (fun q => component 2 (transform W Internal Pwa (with_par 2 p q))) (get_par 2 p) (-1) /\ g 2%nat 2%nat = 1.
Proof.
  exists 1, (P3 2 0 (-1)). eexists. split; [lra|]. split; [reflexivity|]. split; [|reflexivity].
  apply (has_derivative_of _ Rabs _ _ 1); [lra|intros q _; reflexivity|].
  cbn [get_par p_area]. eapply is_derive_eq; [apply abs_derive; lra|]. destruct (Rle_dec 0 (-1)); [lra|reflexivity].
Qed.
Print Assumptions C77_negative_area_refuted.

Example C26_nonvacuous : interior (7/10) Pwa (P3 3 (1/2) 4) /\ interior (7/10) Internal (P3 3 0 4).
Proof. unfold interior. cbn. rewrite sin_0. lra. Qed.

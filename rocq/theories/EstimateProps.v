(** Properties C135-C140: the initial estimates of peaks and baselines. *)
From Coq Require Import Reals Lra Psatz Sorting.Sorted Sorting.Permutation.
From Verif Require Import Prelude PeakFuncs PeakFuncsProofs PeakFuncsMore PeakFuncsProps Baselines BaselinesProps Estimate EstimateProofs.
Open Scope R_scope.

(** The peak function's value: Gaussian or GaussianOverR. *)
Definition peak_value (over_r : bool) (W : R) (p : pars3) (x : R) : xR :=
  if over_r then gor_value W p x else gaussian_value W p x.
(** A largest element. *)
Definition largest (m : R) (l : list R) : Prop := In m l /\ forall x, In x l -> x <= m.

Lemma largest_max l m : largest m l -> rmax_list l = m.
Proof.
  intros [I L]. assert (N : l <> []) by (intros ->; destruct I). destruct (rmax_spec l N) as [I' L'].
  apply Rle_antisym; [apply L; exact I'|apply L'; exact I].
Qed.

Lemma estimate_form over_r W r y : 0 < W -> StronglySorted Rlt r -> length r = length y -> (3 <= length (positive_points r y))%nat ->
  exists c w q, let m := rmax_list (map snd (positive_points r y)) in
    position_width (map fst (positive_points r y)) (map snd (positive_points r y)) = Some (c, w) /\
    estimate_parameters over_r W r y = Ok (Some (P3 c q (if over_r then c3 * m * c * Rmin w W else c3 * m * Rmin w W))) /\
    hd 0 (map fst (positive_points r y)) <= c <= last (map fst (positive_points r y)) 0 /\
    0 < w /\ - (PI / 2) <= q <= PI / 2 /\ sin q + 1 = 2 * (Rmin w W) ^ 2 / W ^ 2 /\
    (w <= W -> q = asin (2 * w ^ 2 / W ^ 2 - 1)).
Proof.
  intros HW St L N. destruct (usable_points r y L) as (A & B & C).
  destruct (position_width_ok (map fst (positive_points r y)) (map snd (positive_points r y))) as (c & w & E & Hc & Hw).
  - now rewrite !map_length.
  - rewrite map_length. lia.
  - now apply sorted_positive.
  - intros v Hv. apply in_map_iff in Hv as (p & <- & Hp). eapply filter_in_pos, Hp.
  - destruct (limit_width_ok over_r W (rmax_list (map snd (positive_points r y))) c w HW Hw) as (q & E2 & Q1 & Q2 & Q3).
    exists c, w, q. cbv zeta. split; [exact E|]. split; [|now repeat split].
    unfold estimate_parameters. rewrite L, Nat.eqb_refl. cbn [negb]. rewrite C.
    destruct (Nat.ltb_spec (length (positive_points r y)) 3); [lia|]. rewrite A, B, E. cbn [xbind]. rewrite E2. reflexivity.
Qed.

Lemma mul3_pos a b c : 0 < a -> 0 < b -> 0 < c -> 0 < a * b * c.
Proof. intros. apply Rmult_lt_0_compat; [now apply Rmult_lt_0_compat|assumption]. Qed.
Lemma mul4_pos a b c d : 0 < a -> 0 < b -> 0 < c -> 0 < d -> 0 < a * b * c * d.
Proof. intros. apply Rmult_lt_0_compat; [now apply mul3_pos|assumption]. Qed.

(** ** C135 *)
Theorem C135_estimation_outcomes :
  forall over_r W r y, 0 < W -> StronglySorted Rlt r ->
    (length r <> length y \/ (length (positive_points r y) < 3)%nat ->
       estimate_parameters over_r W r y = Err EstimationError) /\
    (length r = length y -> (3 <= length (positive_points r y))%nat ->
       exists p w, estimate_parameters over_r W r y = Ok (Some p) /\
         transform W Internal Pwa p = Ok (p_pos p, Some w, Rabs (p_area p)) /\ 0 < w <= W).
Proof.
  intros over_r W r y HW St. split.
  - intros H. unfold estimate_parameters. destruct (Nat.eqb_spec (length r) (length y)) as [L|L]; [|reflexivity]. cbn [negb].
    destruct (usable_points r y L) as (_ & _ & C). rewrite C. destruct H as [H|H]; [contradiction|].
    destruct (Nat.ltb_spec (length (positive_points r y)) 3); [reflexivity|lia].
  - intros L N. destruct (estimate_form over_r W r y HW St L N) as (c & w & q & _ & E & _ & Hw & Q1 & Q2 & _).
    set (p := P3 _ _ _) in E. exists p, (width_out W Pwa (normal_width (p_wid p))). split; [exact E|]. split; [reflexivity|].
    destruct (fwhm_range W HW (normal_width (p_wid p))) as [R0 R1]. split; [|exact R1].
    rewrite normal_id by exact Q1. destruct R0 as [R0|R0]; [rewrite normal_id in R0 by exact Q1; exact R0|].
    rewrite normal_id in R0 by exact Q1. exfalso. pose proof (fwhm_sqr W HW (p_wid p)) as F. rewrite <- R0 in F.
    change (p_wid p) with q in F. rewrite Q2 in F.
    assert (0 < Rmin w W) by (apply Rmin_glb_lt; assumption).
    replace (W ^ 2 * (2 * Rmin w W ^ 2 / W ^ 2 / 2)) with (Rmin w W ^ 2) in F by (field; lra).
    assert (0 < Rmin w W ^ 2) by (apply pow_lt; assumption). rewrite <- F in H0. lra.
Qed.
Print Assumptions C135_estimation_outcomes.

(** ** C136 *)
Theorem C136_estimate_matches_the_data :
  forall over_r W r y m, 0 < W -> StronglySorted Rlt r -> length r = length y ->
    (3 <= length (positive_points r y))%nat -> (over_r = true -> forall x, In x r -> 0 < x) ->
    largest m (map snd (positive_points r y)) ->
    exists p, estimate_parameters over_r W r y = Ok (Some p) /\
      (exists a b, In a (map fst (positive_points r y)) /\ In b (map fst (positive_points r y)) /\ a <= p_pos p <= b) /\
      peak_value over_r W p (p_pos p) = Some m /\
      0 < p_area p.
Proof.
  intros over_r W r y m HW St L N Pr Hm.
  destruct (estimate_form over_r W r y HW St L N) as (c & w & q & _ & E & Hc & Hw & Q1 & Q2 & _).
  rewrite (largest_max _ _ Hm) in E. set (v := Rmin w W) in *.
  assert (V : 0 < v) by (apply Rmin_glb_lt; assumption).
  assert (NE : map fst (positive_points r y) <> []) by (intros X; apply (f_equal (@length R)) in X; rewrite map_length in X; cbn in X; lia).
  assert (M : 0 < m).
  { destruct Hm as [Hm _]. apply in_map_iff in Hm as (pt & <- & Hp). eapply filter_in_pos, Hp. }
  pose proof c3_pos as C3. pose proof (c3_width W q v HW V Q2) as C1.
  assert (SQ : 0 < sin q + 1).
  { rewrite Q2. apply Rdiv_lt_0_compat; [|apply pow_lt; exact HW]. assert (0 < v ^ 2) by (apply pow_lt; exact V). lra. }
  assert (NN : forall z, - (c - c) ^ 2 / z = 0) by (intros z; unfold Rdiv; replace (- (c - c) ^ 2) with 0 by ring; ring).
  exists (P3 c q (if over_r then c3 * m * c * v else c3 * m * v)). split; [exact E|]. split; [|split]; cbn [p_pos p_area p_wid].
  - exists (hd 0 (map fst (positive_points r y))), (last (map fst (positive_points r y)) 0).
    split; [apply hd_in; exact NE|]. split; [apply last_in; exact NE|exact Hc].
  - destruct over_r; cbn [peak_value].
    + assert (C : 0 < c).
      { assert (0 < hd 0 (map fst (positive_points r y))); [|lra]. apply Pr; [reflexivity|].
        pose proof (hd_in _ NE) as I. apply in_map_iff in I as ((u, z) & Eu & I). apply filter_In in I as [I _]. apply in_combine_l in I. cbn in Eu. now rewrite <- Eu. }
      unfold gor_value. rewrite (proj2 (degenerate_false _)) by exact SQ. destruct (Req_EM_T c 0); [lra|]. cbn [p_wid p_area p_pos].
      rewrite NN, exp_0, Rmult_1_r. replace (Rabs c * c1 W * sqrt (sin q + 1)) with (Rabs c * (c3 * v)) by (rewrite <- C1; ring).
      assert (0 < c3 * m * c * v) by (now apply mul4_pos).
      rewrite (Rabs_pos_eq (c3 * m * c * v)) by lra. rewrite (Rabs_pos_eq c) by lra. f_equal. field. lra.
    + unfold gaussian_value. rewrite (proj2 (degenerate_false _)) by exact SQ. cbn [p_wid p_area p_pos].
      rewrite NN, exp_0, Rmult_1_r, C1.
      assert (0 < c3 * m * v) by (now apply mul3_pos).
      rewrite (Rabs_pos_eq (c3 * m * v)) by lra. f_equal. field. lra.
  - destruct over_r.
    + assert (C : 0 < c).
      { assert (0 < hd 0 (map fst (positive_points r y))); [|lra]. apply Pr; [reflexivity|].
        pose proof (hd_in _ NE) as I. apply in_map_iff in I as ((u, z) & Eu & I). apply filter_In in I as [I _]. apply in_combine_l in I. cbn in Eu. now rewrite <- Eu. }
      now apply mul4_pos.
    + now apply mul3_pos.
Qed.
Print Assumptions C136_estimate_matches_the_data.

(** ** C137 *)
(** The grid is its own mirror image about mu. *)
Definition mirror (mu : R) (r : list R) : Prop := rev (map (fun x => 2 * mu - x) r) = r.

Lemma hd_rev (l : list R) : hd 0 (rev l) = last l 0.
Proof.
  induction l as [|a l IH] using rev_ind; [reflexivity|]. rewrite rev_app_distr, last_last. reflexivity.
Qed.
Lemma last_map (f : R -> R) l : l <> [] -> last (map f l) 0 = f (last l 0).
Proof.
  induction l as [|a l IH]; intros N; [contradiction|]. destruct l as [|b l]; [reflexivity|].
  change (last (map f (b :: l)) 0 = f (last (b :: l) 0)). apply IH. discriminate.
Qed.
Lemma hd_map (f : R -> R) l : l <> [] -> hd 0 (map f l) = f (hd 0 l).
Proof. destruct l; [contradiction|reflexivity]. Qed.

Lemma rsum_app a b : rsum (a ++ b) = rsum a + rsum b.
Proof. induction a as [|x a IH]; cbn; [unfold rsum; lra|]. unfold rsum in *. lra. Qed.
Lemma rsum_rev l : rsum (rev l) = rsum l.
Proof. induction l as [|a l IH]; cbn; [reflexivity|]. rewrite rsum_app, IH. unfold rsum; cbn. lra. Qed.
Lemma rsum_opp (f : R -> R) l : rsum (map (fun x => - f x) l) = - rsum (map f l).
Proof. induction l as [|a l IH]; unfold rsum in *; cbn; [lra|]. lra. Qed.

Lemma odd_sum mu f r : mirror mu r -> (forall x, f (2 * mu - x) = - f x) -> rsum (map f r) = 0.
Proof.
  intros M O. assert (E : rsum (map f r) = - rsum (map f r)); [|lra].
  rewrite <- M at 1. rewrite map_rev, rsum_rev, map_map. rewrite (map_ext _ (fun x => - f x)) by exact O. apply rsum_opp.
Qed.

Lemma wsum_map (k : R -> R) r : wsum r (map k r) = rsum (map (fun x => x * k x) r).
Proof. unfold wsum. induction r as [|a r IH]; cbn; [reflexivity|]. unfold rsum in *. rewrite IH. reflexivity. Qed.

Lemma rsum_lin (k : R -> R) mu r : rsum (map (fun x => x * k x) r) = rsum (map (fun x => (x - mu) * k x) r) + mu * rsum (map k r).
Proof. induction r as [|a r IH]; unfold rsum in *; cbn; [lra|]. rewrite IH. ring. Qed.

Lemma all_positive_points (g : R -> R) r : (forall x, 0 < g x) -> positive_points r (map g r) = combine r (map g r).
Proof.
  intros P. induction r as [|a r IH]; [reflexivity|]. cbn [map]. unfold positive_points in *. cbn [combine filter]. unfold above_zero at 1. cbn [snd].
  destruct (Rlt_dec 0 (g a)) as [?|N]; [now rewrite IH|]. exfalso. apply N, P.
Qed.
Lemma fst_combine (g : R -> R) r : map fst (combine r (map g r)) = r.
Proof. induction r as [|a r IH]; cbn; [reflexivity|now rewrite IH]. Qed.
Lemma snd_combine (g : R -> R) r : map snd (combine r (map g r)) = map g r.
Proof. induction r as [|a r IH]; cbn; [reflexivity|now rewrite IH]. Qed.

Lemma sigma_exact mu K h e e' mn : 0 < K -> 0 < h -> e <> mu ->
  sigma_side mu e e' (h * exp (- (e - mu) ^ 2 / K)) mn h = Some (sqrt (K / 2)).
Proof.
  intros HK Hh D. set (d := e - mu). assert (Dz : d <> 0) by (unfold d; lra). assert (P : 0 < d ^ 2) by (replace (d ^ 2) with (Rsqr d) by (unfold Rsqr; ring); now apply Rsqr_pos_lt).
  assert (N : - d ^ 2 / K < 0) by (unfold Rdiv; rewrite Ropp_mult_distr_l_reverse; assert (0 < d ^ 2 * / K) by (apply Rmult_lt_0_compat; [exact P|now apply Rinv_0_lt_compat]); lra).
  assert (X : exp (- d ^ 2 / K) < 1) by (rewrite <- exp_0; now apply exp_increasing).
  assert (Q : h * exp (- d ^ 2 / K) < h) by (rewrite <- (Rmult_1_r h) at 2; now apply Rmult_lt_compat_l).
  assert (Qp : 0 < h * exp (- d ^ 2 / K)) by (apply Rmult_lt_0_compat; [exact Hh|apply exp_pos]).
  unfold sigma_side. destruct (Rlt_dec _ h); [|contradiction].
  destruct (ln_ratio_neg (h * exp (- d ^ 2 / K)) h ltac:(lra)) as (-> & E & _). cbn [xbind]. rewrite E. cbn [xbind].
  assert (LE : ln (h * exp (- d ^ 2 / K) / h) = - d ^ 2 / K).
  { replace (h * exp (- d ^ 2 / K) / h) with (exp (- d ^ 2 / K)) by (field; lra). apply ln_exp. }
  rewrite LE. fold d. rewrite sigma_form by exact N. f_equal.
  replace (- / (2 * (- d ^ 2 / K))) with (K / 2 / d ^ 2) by (field; repeat split; lra).
  rewrite sqrt_div by lra. replace (sqrt (d ^ 2)) with (Rabs d) by (replace (d ^ 2) with (Rsqr d) by (unfold Rsqr; ring); symmetry; apply sqrt_Rsqr_abs).
  field. now apply Rabs_no_R0.
Qed.

Theorem C137_exact_on_noise_free_data :
  forall W mu w a q r y, 0 < W -> 0 < w <= W -> 0 < a ->
    returns (transform W Pwa Internal (P3 mu w a)) q ->
    StronglySorted Rlt r -> mirror mu r -> In mu r -> (3 <= length r)%nat ->
    Forall2 (fun x v => gaussian_value W q x = Some v) r y ->
    estimate_parameters false W r y = Ok (Some q).
Proof.
  intros W mu w a q r y HW Hw Ha Rq St Mi Im N Fv.
  unfold returns, transform in Rq. cbn [fmt_eqb andb negb p_wid p_pos p_area] in Rq.
  rewrite width_in_ok in Rq by lra. cbn [bind option_map width_out] in Rq.
  destruct q as [q0 q1 q2]. cbn [p_pos p_wid p_area] in Rq. injection Rq as <- <- <-.
  set (q := asin (2 * w ^ 2 / W ^ 2 - 1)) in *.
  destruct (asin_arg W HW w ltac:(lra)) as [A1 A2].
  assert (SQ : sin q + 1 = 2 * w ^ 2 / W ^ 2) by (unfold q; rewrite sin_asin by lra; ring).
  assert (W2 : 0 < W ^ 2) by (apply pow_lt; exact HW). assert (w2 : 0 < w ^ 2) by (apply pow_lt; lra). pose proof ln2_pos as L2. pose proof c3_pos as C3.
  assert (SP : 0 < sin q + 1) by (rewrite SQ; apply Rdiv_lt_0_compat; lra).
  pose proof (c3_width W q w HW ltac:(lra) SQ) as C1.
  set (K := w ^ 2 / (4 * ln 2)). assert (HK : 0 < K) by (apply Rdiv_lt_0_compat; lra).
  set (h := a / (c3 * w)). assert (Hh : 0 < h) by (apply Rdiv_lt_0_compat; [exact Ha|apply Rmult_lt_0_compat; lra]).
  set (g := fun x => h * exp (- (x - mu) ^ 2 / K)).
  assert (G : forall x, gaussian_value W (P3 mu q a) x = Some (g x)).
  { intros x. unfold gaussian_value. rewrite (proj2 (degenerate_false _)) by exact SP. cbn [p_pos p_wid p_area]. rewrite C1, Rabs_pos_eq by lra.
    replace (c2 W * (sin q + 1)) with K; [reflexivity|]. unfold c2, K. rewrite SQ. field. lra. }
  assert (Ey : y = map g r).
  { clear -Fv G. induction Fv as [|x v r y Hv _ IH]; [reflexivity|]. cbn [map]. rewrite G in Hv. injection Hv as <-. now f_equal. }
  subst y.
  assert (Gp : forall x, 0 < g x) by (intros x; apply Rmult_lt_0_compat; [exact Hh|apply exp_pos]).
  assert (Nr : r <> []) by (intros ->; cbn in N; lia).
  assert (Ends : hd 0 r = 2 * mu - last r 0) by (rewrite <- Mi at 1; rewrite hd_rev, last_map by exact Nr; reflexivity).
  pose proof (sorted_strict_ends r St ltac:(lia)) as SE.
  assert (Gmu : g mu = h).
  { unfold g. replace (- (mu - mu) ^ 2 / K) with 0 by (field; lra). rewrite exp_0. ring. }
  assert (Gle : forall x, g x <= h).
  { intros x. unfold g. rewrite <- (Rmult_1_r h) at 2. apply Rmult_le_compat_l; [lra|]. rewrite <- exp_0.
    assert (Z : - (x - mu) ^ 2 / K <= 0).
    { unfold Rdiv. rewrite Ropp_mult_distr_l_reverse. assert (0 <= (x - mu) ^ 2 * / K) by (apply Rmult_le_pos; [apply pow2_ge_0|left; now apply Rinv_0_lt_compat]). lra. }
    destruct Z as [Z|Z]; [left; now apply exp_increasing|right; now rewrite Z]. }
  assert (Mx : rmax_list (map g r) = h).
  { apply largest_max. split; [rewrite <- Gmu; now apply in_map|]. intros v Hv. apply in_map_iff in Hv as (x & <- & _). apply Gle. }
  assert (Ny : map g r <> []) by (destruct r; [contradiction|discriminate]).
  assert (GH : g (hd 0 r) < h).
  { unfold g. rewrite <- (Rmult_1_r h) at 2. apply Rmult_lt_compat_l; [lra|]. rewrite <- exp_0. apply exp_increasing.
    assert (0 < (hd 0 r - mu) ^ 2) by (replace ((hd 0 r - mu) ^ 2) with (Rsqr (hd 0 r - mu)) by (unfold Rsqr; ring); apply Rsqr_pos_lt; lra).
    unfold Rdiv. rewrite Ropp_mult_distr_l_reverse. assert (0 < (hd 0 r - mu) ^ 2 * / K) by (apply Rmult_lt_0_compat; [assumption|now apply Rinv_0_lt_compat]). lra. }
  assert (Mn : rmin_list (map g r) <> h).
  { destruct (rmin_spec _ Ny) as [_ L]. specialize (L (g (hd 0 r)) (in_map g r _ (hd_in r Nr))). lra. }
  assert (PW : position_width r (map g r) = Some (mu, w)).
  { unfold position_width. rewrite Mx. destruct (Req_EM_T (rmin_list (map g r)) h); [contradiction|].
    set (mn := rmin_list (map g r)) in *. rewrite map_map. set (k := fun x => (g x - mn) ^ 2). fold (wsum r (map k r)).
    assert (Pk : 0 < rsum (map k r)).
    { pose proof (weights_pos (map g r) Ny) as Pw. fold mn in Pw. rewrite map_map in Pw. apply Pw. rewrite Mx. exact Mn. }
    rewrite wsum_map, (rsum_lin k mu), (odd_sum mu _ r Mi).
    2:{ intros x. unfold k, g. replace ((2 * mu - x - mu) ^ 2) with ((x - mu) ^ 2) by ring. ring. }
    unfold xdiv at 1. destruct (Req_EM_T (rsum (map k r)) 0); [lra|]. cbn [xbind].
    replace ((0 + mu * rsum (map k r)) / rsum (map k r)) with mu by (field; lra).
    rewrite (hd_map g r Nr), (last_map g r Nr). unfold g at 1 2. rewrite !sigma_exact by lra. cbn [xbind]. f_equal. f_equal.
    replace (1 / 2 * (sqrt (K / 2) + sqrt (K / 2)) * sigma2fwhm) with (sqrt (K / 2) * sigma2fwhm) by field.
    apply Rsqr_inj; [apply Rmult_le_pos; [apply sqrt_pos|left; apply s2f_pos]|lra|].
    rewrite Rsqr_mult, Rsqr_sqrt by lra. replace (Rsqr sigma2fwhm) with (sigma2fwhm ^ 2) by (unfold Rsqr; ring). rewrite s2f_sqr. unfold K, Rsqr. field. lra. }
  destruct (estimate_form false W r (map g r) HW St ltac:(now rewrite map_length)) as (c & w' & q' & E1 & E2 & _ & _ & _ & _ & E3).
  { rewrite all_positive_points by exact Gp. rewrite combine_length, map_length. lia. }
  rewrite all_positive_points, fst_combine, snd_combine in * by exact Gp. rewrite PW in E1. injection E1 as <- <-.
  rewrite E2. rewrite E3 by lra. fold q. rewrite Mx, Rmin_left by lra. unfold h.
  replace (c3 * (a / (c3 * w)) * w) with a by (field; lra). reflexivity.
Qed.
Print Assumptions C137_exact_on_noise_free_data.

Example C137_nonvacuous : mirror 5 [3; 4; 5; 6; 7] /\ StronglySorted Rlt [3; 4; 5; 6; 7] /\
  (exists q, returns (transform 2 Pwa Internal (P3 5 1 3)) q /\
     exists y, Forall2 (fun x v => gaussian_value 2 q x = Some v) [3; 4; 5; 6; 7] y).
Proof.
  split; [unfold mirror; cbn; repeat (f_equal; try lra)|]. split; [repeat constructor; lra|].
  destruct (C29_width_and_area_meaning 2 5 1 3) as (q & h & Rq & _ & _ & V & _); try lra.
  exists q. split; [exact Rq|].
  destruct (V 3) as (v3 & E3 & _), (V 4) as (v4 & E4 & _), (V 5) as (v5 & E5 & _), (V 6) as (v6 & E6 & _), (V 7) as (v7 & E7 & _).
  exists [v3; v4; v5; v6; v7]. repeat constructor; assumption.
Qed.
Definition pts_ex : list (R * R) := positive_points [1; 2; 3; 4] [1; 3; -2; 2].
Example C136_nonvacuous : StronglySorted Rlt [1; 2; 3; 4] /\ (3 <= length pts_ex)%nat /\ largest 3 (map snd pts_ex).
Proof.
  split; [repeat constructor; lra|]. unfold pts_ex, positive_points, above_zero. cbn.
  destruct (Rlt_dec 0 1); [|lra]. destruct (Rlt_dec 0 3); [|lra]. destruct (Rlt_dec 0 (-2)); [lra|]. destruct (Rlt_dec 0 2); [|lra]. cbn.
  split; [lia|]. split; [now right; left|]. intros x [<-|[<-|[<-|[]]]]; lra.
Qed.

(** ** C138 *)
(** Only the points above zero count; and rescaling the data rescales the peak. *)
Lemma same_points over_r W r y r' y' : length r = length y -> length r' = length y' ->
  positive_points r y = positive_points r' y' -> estimate_parameters over_r W r y = estimate_parameters over_r W r' y'.
Proof.
  intros L L' E. unfold estimate_parameters. rewrite L, L', !Nat.eqb_refl. cbn [negb].
  destruct (usable_points r y L) as (A & B & C). destruct (usable_points r' y' L') as (A' & B' & C').
  rewrite A, B, C, A', B', C', E. reflexivity.
Qed.

Lemma scale_points k r y : 0 < k -> positive_points r (map (Rmult k) y) = map (fun p => (fst p, k * snd p)) (positive_points r y).
Proof.
  intros Hk. revert y. induction r as [|a r IH]; intros [|b y]; try reflexivity.
  change (positive_points (a :: r) (map (Rmult k) (b :: y))) with
    (if (if Rlt_dec 0 (k * b) then true else false) then (a, k * b) :: positive_points r (map (Rmult k) y) else positive_points r (map (Rmult k) y)).
  change (positive_points (a :: r) (b :: y)) with (if (if Rlt_dec 0 b then true else false) then (a, b) :: positive_points r y else positive_points r y).
  rewrite IH. destruct (Rlt_dec 0 b) as [P|P], (Rlt_dec 0 (k * b)) as [Q|Q]; try reflexivity.
  - exfalso. apply Q. now apply Rmult_lt_0_compat.
  - exfalso. apply P. apply Rmult_lt_reg_l with k; [exact Hk|]. lra.
Qed.

Lemma scale_rmax k l : 0 < k -> l <> [] -> rmax_list (map (Rmult k) l) = k * rmax_list l.
Proof.
  intros Hk N. apply largest_max. destruct (rmax_spec l N) as [I L]. split; [now apply in_map|].
  intros x Hx. apply in_map_iff in Hx as (z & <- & Hz). apply Rmult_le_compat_l; [lra|now apply L].
Qed.
Lemma scale_rmin k l : 0 < k -> l <> [] -> rmin_list (map (Rmult k) l) = k * rmin_list l.
Proof.
  intros Hk N. destruct (rmin_spec l N) as [I L]. assert (N' : map (Rmult k) l <> []) by (destruct l; [contradiction|discriminate]).
  destruct (rmin_spec _ N') as [I' L']. apply Rle_antisym; [apply L'; now apply in_map|].
  apply in_map_iff in I' as (z & <- & Hz). apply Rmult_le_compat_l; [lra|now apply L].
Qed.

Lemma scale_sigma k c e e' ye mn mx : 0 < k -> 0 < mx -> sigma_side c e e' (k * ye) (k * mn) (k * mx) = sigma_side c e e' ye mn mx.
Proof.
  intros Hk Hm. unfold sigma_side.
  assert (D : forall z, xdiv (k * z) (k * mx) = xdiv z mx).
  { intros z. assert (0 < k * mx) by now apply Rmult_lt_0_compat. unfold xdiv. destruct (Req_EM_T (k * mx) 0); [lra|]. destruct (Req_EM_T mx 0); [lra|]. f_equal. field. lra. }
  rewrite !D. destruct (Rlt_dec ye mx) as [A|A], (Rlt_dec (k * ye) (k * mx)) as [B|B]; try reflexivity.
  - exfalso. apply B. now apply Rmult_lt_compat_l.
  - exfalso. apply A. now apply Rmult_lt_reg_l with k.
Qed.

Lemma scale_position k rs ys : 0 < k -> ys <> [] -> rs <> [] -> (forall v, In v ys -> 0 < v) ->
  position_width rs (map (Rmult k) ys) = position_width rs ys.
Proof.
  intros Hk N Nr P. unfold position_width. rewrite scale_rmax, scale_rmin by assumption.
  assert (Pm : 0 < rmax_list ys) by (apply P; now apply rmax_spec).
  destruct (Req_EM_T (rmin_list ys) (rmax_list ys)) as [E|E], (Req_EM_T (k * rmin_list ys) (k * rmax_list ys)) as [F|F].
  - reflexivity.
  - exfalso. apply F. now rewrite E.
  - exfalso. apply E. apply Rmult_eq_reg_l with k; [exact F|lra].
  - rewrite map_map. rewrite hd_map, last_map by exact N.
    set (mn := rmin_list ys). set (w0 := map (fun y => (y - mn) ^ 2) ys).
    assert (Ew : map (fun x => (k * x - k * mn) ^ 2) ys = map (Rmult (k ^ 2)) w0).
    { unfold w0. rewrite map_map. apply map_ext. intros z. ring. }
    rewrite Ew. fold (wsum rs (map (Rmult (k ^ 2)) w0)). fold (wsum rs w0).
    assert (S1 : rsum (map (Rmult (k ^ 2)) w0) = k ^ 2 * rsum w0).
    { generalize w0. intros l. induction l as [|z l IH]; unfold rsum in *; cbn [map fold_right]; [lra|]. rewrite IH. ring. }
    assert (S2 : wsum rs (map (Rmult (k ^ 2)) w0) = k ^ 2 * wsum rs w0).
    { generalize w0. clear. induction rs as [|z rs IH]; intros [|v l]; unfold wsum, rsum in *; cbn [map combine fold_right fst snd]; try lra. rewrite IH. ring. }
    assert (K2 : 0 < k ^ 2) by (apply pow_lt; exact Hk).
    assert (PW : 0 < rsum w0) by (apply weights_pos; assumption).
    rewrite S1, S2. assert (D : xdiv (k ^ 2 * wsum rs w0) (k ^ 2 * rsum w0) = xdiv (wsum rs w0) (rsum w0)).
    { assert (0 < k ^ 2 * rsum w0) by now apply Rmult_lt_0_compat. unfold xdiv. destruct (Req_EM_T (k ^ 2 * rsum w0) 0); [lra|]. destruct (Req_EM_T (rsum w0) 0); [lra|]. f_equal. field. lra. }
    rewrite D. destruct (xdiv (wsum rs w0) (rsum w0)) as [c|]; [|reflexivity]. cbn [xbind]. rewrite !scale_sigma by assumption. reflexivity.
Qed.

Theorem C138_estimate_depends_on_positive_points :
  forall over_r W r y r' y', length r = length y -> length r' = length y' ->
    positive_points r y = positive_points r' y' ->
    estimate_parameters over_r W r y = estimate_parameters over_r W r' y'.
Proof. apply same_points. Qed.
Print Assumptions C138_estimate_depends_on_positive_points.

Theorem C138_rescaled_data :
  forall over_r W r y k p, 0 < W -> 0 < k -> StronglySorted Rlt r ->
    estimate_parameters over_r W r y = Ok (Some p) ->
    estimate_parameters over_r W r (map (Rmult k) y) = Ok (Some (P3 (p_pos p) (p_wid p) (k * p_area p))).
Proof.
  intros over_r W r y k p HW Hk St E.
  destruct (Nat.eq_dec (length r) (length y)) as [L|L].
  2:{ rewrite (proj1 (C135_estimation_outcomes over_r W r y HW St)) in E by now left. discriminate. }
  destruct (le_lt_dec 3 (length (positive_points r y))) as [N|N].
  2:{ rewrite (proj1 (C135_estimation_outcomes over_r W r y HW St)) in E by now right. discriminate. }
  set (pts := positive_points r y) in *.
  assert (Npts : pts <> []) by (intros X; rewrite X in N; cbn in N; lia).
  assert (Ek : positive_points r (map (Rmult k) y) = map (fun p => (fst p, k * snd p)) pts) by now apply scale_points.
  assert (F1 : map fst (map (fun p => (fst p, k * snd p)) pts) = map fst pts) by (rewrite map_map; reflexivity).
  assert (F2 : map snd (map (fun p => (fst p, k * snd p)) pts) = map (Rmult k) (map snd pts)) by (rewrite !map_map; reflexivity).
  destruct (estimate_form over_r W r y HW St L N) as (c & w & q & E1 & E2 & _ & Hw & _). rewrite E2 in E. injection E as <-.
  assert (L' : length r = length (map (Rmult k) y)) by now rewrite map_length.
  unfold estimate_parameters. rewrite L', Nat.eqb_refl. cbn [negb].
  destruct (usable_points r (map (Rmult k) y) L') as (A & B & C). rewrite A, B, C, Ek, F1, F2, map_length.
  destruct (Nat.ltb_spec (length pts) 3); [lia|].
  assert (Ns : map snd pts <> []) by (destruct pts; [contradiction|discriminate]).
  assert (Nf : map fst pts <> []) by (destruct pts; [contradiction|discriminate]).
  rewrite scale_position; [|exact Hk|exact Ns|exact Nf|intros v Hv; apply in_map_iff in Hv as (pt & <- & Hp); exact (filter_in_pos r y pt Hp)].
  fold pts in E1. rewrite E1. cbn [xbind]. rewrite scale_rmax by assumption. set (m := rmax_list (map snd pts)) in *.
  destruct (limit_width_ok over_r W m c w HW Hw) as (q1 & X1 & _ & _ & _).
  destruct (usable_points r y L) as (A0 & B0 & C0). fold pts in A0, B0, C0.
  assert (Q : q1 = q).
  { unfold estimate_parameters in E2. rewrite L, Nat.eqb_refl in E2. cbn [negb] in E2. rewrite C0, A0, B0 in E2.
    destruct (Nat.ltb_spec (length pts) 3); [lia|]. rewrite E1 in E2. cbn [xbind] in E2. fold pts in E2. fold m in E2. rewrite X1 in E2. now injection E2. }
  subst q1. clear - X1. unfold limit_width in *. destruct (Rlt_dec W w).
  - injection X1 as Eq Ea. cbn [p_pos p_wid p_area]. rewrite <- Eq. do 2 f_equal. transitivity (P3 c (PI / 2) (k * (if over_r then c3 * m * c * W else c3 * m * W))); [destruct over_r; f_equal; ring|]. rewrite Ea. reflexivity.
  - destruct (xdiv (2 * w ^ 2) (W ^ 2)) as [s|]; [|discriminate]. cbn [xbind] in *. destruct (xasin (s - 1)) as [q'|]; [|discriminate]. cbn [xbind] in *.
    injection X1 as Eq Ea. cbn [p_pos p_wid p_area]. rewrite <- Eq. do 2 f_equal. transitivity (P3 c q' (k * (if over_r then c3 * m * c * w else c3 * m * w))); [destruct over_r; f_equal; ring|]. rewrite Ea. reflexivity.
Qed.
Print Assumptions C138_rescaled_data.

(** ** C139 *)
(** The source comment (gaussian.py:170-173) promises that a peak estimated from level
    data "has died down by the time it reaches the edge of the data". *)
Lemma ln2_bound : ln 2 < 3 / 4.
Proof.
  rewrite <- (ln_exp (3 / 4)). apply ln_increasing; [lra|].
  assert (E : exp (3 / 4) = exp (3 / 40) ^ 10).
  { rewrite <- exp_ln with (x := exp (3 / 40) ^ 10) by (apply pow_lt, exp_pos). f_equal. rewrite ln_pow by apply exp_pos. rewrite ln_exp. cbn. lra. }
  rewrite E. assert (X : 1 + 3 / 40 < exp (3 / 40)) by (apply exp_ineq1; lra).
  assert (Y : 43 / 40 < exp (3 / 40)) by lra.
  apply Rlt_trans with ((43 / 40) ^ 10); [cbn; lra|].
  assert (P : forall n, (43 / 40) ^ S n < exp (3 / 40) ^ S n).
  { intros n. induction n as [|n IH]; [cbn; lra|]. change ((43 / 40) ^ S (S n)) with (43 / 40 * (43 / 40) ^ S n). change (exp (3 / 40) ^ S (S n)) with (exp (3 / 40) * exp (3 / 40) ^ S n).
    apply Rmult_le_0_lt_compat; try lra. apply pow_le. lra. }
  apply P.
Qed.

Theorem C139_level_data_refuted :
  forall W r h, 0 < W -> 0 < h -> StronglySorted Rlt r -> (3 <= length r)%nat ->
    (last r 0 - hd 0 r) / ln 2 <= W ->
    exists p v v', estimate_parameters false W r (map (fun _ => h) r) = Ok (Some p) /\
      gaussian_value W p (p_pos p) = Some h /\
      gaussian_value W p (hd 0 r) = Some v /\ gaussian_value W p (last r 0) = Some v' /\
      h / 2 < v /\ h / 2 < v'.
Proof.
  intros W r h HW Hh St N Wd. pose proof ln2_pos as L2. pose proof ln2_bound as LB.
  set (g := fun _ : R => h). assert (Gp : forall x, 0 < g x) by (intros; exact Hh).
  assert (Nr : r <> []) by (intros ->; cbn in N; lia).
  assert (Ny : map g r <> []) by (destruct r; [contradiction|discriminate]).
  pose proof (sorted_strict_ends r St ltac:(lia)) as SE.
  assert (Mx : rmax_list (map g r) = h).
  { apply largest_max. split; [change h with (g (hd 0 r)); apply in_map, hd_in, Nr|]. intros v Hv. apply in_map_iff in Hv as (x & <- & _). unfold g. lra. }
  assert (Mn : rmin_list (map g r) = h).
  { destruct (rmin_spec _ Ny) as [I _]. apply in_map_iff in I as (x & <- & _). reflexivity. }
  set (c := (hd 0 r + last r 0) / 2). set (w := (last r 0 - hd 0 r) / ln 2).
  assert (PW : position_width r (map g r) = Some (c, w)).
  { unfold position_width. rewrite Mx, Mn. destruct (Req_EM_T h h); [|contradiction]. unfold xdiv. destruct (Req_EM_T (2 * ln 2) 0); [lra|]. cbn [xbind].
    f_equal. f_equal. unfold w. field. lra. }
  assert (Hw : 0 < w) by (apply Rdiv_lt_0_compat; lra).
  destruct (estimate_form false W r (map g r) HW St ltac:(now rewrite map_length)) as (c' & w' & q & E1 & E2 & _ & _ & _ & SQ & E3).
  { rewrite all_positive_points by exact Gp. rewrite combine_length, map_length. lia. }
  rewrite all_positive_points, fst_combine, snd_combine in * by exact Gp. rewrite PW in E1. injection E1 as <- <-.
  rewrite Mx, Rmin_left in E2 by exact Wd. rewrite Rmin_left in SQ by exact Wd.
  assert (W2 : 0 < W ^ 2) by (apply pow_lt; exact HW). assert (w2 : 0 < w ^ 2) by (apply pow_lt; exact Hw).
  assert (SP : 0 < sin q + 1) by (rewrite SQ; apply Rdiv_lt_0_compat; lra).
  pose proof (c3_width W q w HW Hw SQ) as C1. pose proof c3_pos as C3.
  assert (G : forall x, gaussian_value W (P3 c q (c3 * h * w)) x = Some (h * exp (- (4 * ln 2 * (x - c) ^ 2 / w ^ 2)))).
  { intros x. unfold gaussian_value. rewrite (proj2 (degenerate_false _)) by exact SP. cbn [p_pos p_wid p_area].
    assert (0 < c3 * h * w) by now apply mul3_pos. rewrite C1, Rabs_pos_eq by lra. f_equal. f_equal; [field; lra|]. f_equal.
    unfold c2. rewrite SQ. field. lra. }
  assert (Edge : forall x, (x - c) ^ 2 = ((last r 0 - hd 0 r) / 2) ^ 2 -> h / 2 < h * exp (- (4 * ln 2 * (x - c) ^ 2 / w ^ 2))).
  { intros x Ex. rewrite Ex. assert (Z : 4 * ln 2 * ((last r 0 - hd 0 r) / 2) ^ 2 / w ^ 2 = ln 2 ^ 3) by (unfold w; field; lra).
    rewrite Z. assert (C : ln 2 ^ 3 < 1 / 2) by nra.
    assert (X : 1 + - ln 2 ^ 3 < exp (- ln 2 ^ 3)) by (apply exp_ineq1; assert (0 < ln 2 ^ 3) by (apply pow_lt; exact L2); lra).
    unfold Rdiv. apply Rmult_lt_compat_l; [exact Hh|]. lra. }
  exists (P3 c q (c3 * h * w)), (h * exp (- (4 * ln 2 * (hd 0 r - c) ^ 2 / w ^ 2))), (h * exp (- (4 * ln 2 * (last r 0 - c) ^ 2 / w ^ 2))).
  split; [exact E2|]. cbn [p_pos]. rewrite !G. split; [|split; [reflexivity|split; [reflexivity|]]].
  - f_equal. replace (- (4 * ln 2 * (c - c) ^ 2 / w ^ 2)) with 0 by (field; lra). rewrite exp_0. ring.
  - split; apply Edge; unfold c; field.
Qed.
Print Assumptions C139_level_data_refuted.

Example C139_nonvacuous : StronglySorted Rlt [1; 2; 3] /\ (last [1; 2; 3] 0 - hd 0 [1; 2; 3]) / ln 2 <= 4.
Proof.
  split; [repeat constructor; lra|]. cbn. apply Rmult_le_reg_r with (ln 2); [apply ln2_pos|]. unfold Rdiv. rewrite Rmult_assoc, Rinv_l by (pose proof ln2_pos; lra).
  assert (1 / 2 <= ln 2); [|lra]. rewrite <- (ln_exp (1 / 2)). left. apply ln_increasing; [apply exp_pos|].
  apply Rsqr_incrst_0; [|left; apply exp_pos|lra]. unfold Rsqr. rewrite <- exp_plus. replace (1 / 2 + 1 / 2) with 1 by field. pose proof exp_le_3. lra.
Qed.

(** ** C140 *)
(** numpy's argsort: the positions of the array, in an order that sorts its values
    (ties in any order). *)
Definition argsort_of (argsort : list R -> list nat) : Prop :=
  forall y, Permutation (argsort y) (seq 0 (length y)) /\ StronglySorted Rle (map (fun i => nth i y 0) (argsort y)).
(** Sum of squared residuals of the line y = s*x over some points of the data. *)
Definition misfit (r y : list R) (idx : list nat) (s : R) : R :=
  fold_right Rplus 0 (map (fun i => (nth i y 0 - s * nth i r 0) ^ 2) idx).

Lemma dot_take r y idx : dot (take_idx r idx) (take_idx y idx) = rsum (map (fun i => nth i r 0 * nth i y 0) idx).
Proof. unfold dot, take_idx. induction idx as [|i idx IH]; cbn; [reflexivity|]. unfold rsum in *. rewrite IH. reflexivity. Qed.

Lemma misfit_expand r y idx s : misfit r y idx s =
  dot (take_idx y idx) (take_idx y idx) - 2 * s * dot (take_idx r idx) (take_idx y idx) + s ^ 2 * dot (take_idx r idx) (take_idx r idx).
Proof. rewrite !dot_take. unfold misfit, rsum. induction idx as [|i idx IH]; cbn [map fold_right]; [lra|]. rewrite IH. ring. Qed.

Lemma dot_self_nonneg a : 0 <= dot a a.
Proof. unfold dot. induction a as [|x a IH]; unfold rsum in *; cbn; [lra|]. nra. Qed.

Lemma dot_zero a b : dot a a = 0 -> dot a b = 0.
Proof.
  revert b. induction a as [|x a IH]; intros [|z b] H; try reflexivity. unfold dot, rsum in *. cbn in *.
  pose proof (dot_self_nonneg a) as N. unfold dot, rsum in N. assert (x = 0) by nra. subst x. rewrite (IH b) by nra. ring.
Qed.

Lemma lstsq1_best r y idx s : misfit r y idx (lstsq1 (take_idx r idx) (take_idx y idx)) <= misfit r y idx s.
Proof.
  rewrite !misfit_expand. set (A := take_idx r idx). set (B := take_idx y idx). unfold lstsq1.
  pose proof (dot_self_nonneg A) as N. destruct (Req_EM_T (dot A A) 0) as [E|E].
  - rewrite (dot_zero A B E), E. lra.
  - set (a := dot A A) in *. set (b := dot A B). assert (0 < a) by lra.
    assert (0 <= a * (s - b / a) ^ 2) by (apply Rmult_le_pos; [lra|apply pow2_ge_0]).
    replace (a * (s - b / a) ^ 2) with (s ^ 2 * a - 2 * s * b + b ^ 2 / a) in H0 by (field; lra).
    replace (- 2 * (b / a) * b + (b / a) ^ 2 * a) with (- (b ^ 2 / a)) by (field; lra).
    replace (dot B B - 2 * (b / a) * b + (b / a) ^ 2 * a) with (dot B B - b ^ 2 / a) by (field; lra). lra.
Qed.

Lemma sorted_firstn (l : list R) n : StronglySorted Rle l -> forall a b, In a (firstn n l) -> In b (skipn n l) -> a <= b.
Proof.
  revert n. induction l as [|x l IH]; intros [|n] H a b Ha Hb; try (now destruct Ha); try (now destruct Hb).
  inversion H as [|? ? H1 H2]; subst. cbn in Ha, Hb. destruct Ha as [<-|Ha]; [|now apply (IH n)].
  rewrite Forall_forall in H2. apply H2. rewrite <- (firstn_skipn n l). apply in_or_app. now right.
Qed.

Theorem C140_polynomial_estimate :
  forall argsort r y, argsort_of argsort -> length r = length y ->
    (forall d, (1 < d)%Z -> poly_estimate argsort d r y = Err NotImplementedErr) /\
    (forall d, (d < 1)%Z -> exists pars, poly_estimate argsort d r y = Ok pars /\ forall x, poly_value d pars x = Ok 0) /\
    exists s chosen rest,
      poly_estimate argsort 1 r y = Ok [s; 0] /\
      (* the baseline is the line of slope s through the origin *)
      (forall x, poly_value 1 [s; 0] x = Ok (s * x)) /\
      (* it is fitted to the least tenth of the points, at least one *)
      Permutation (chosen ++ rest) (seq 0 (length y)) /\
      length chosen = Nat.min (Nat.max (length y / 10) 1) (length y) /\
      (forall i j, In i chosen -> In j rest -> nth i y 0 <= nth j y 0) /\
      (forall s', misfit r y chosen s <= misfit r y chosen s').
Proof.
  intros argsort r y HA L. split; [|split].
  - intros d Hd. unfold poly_estimate, poly_degree. destruct (Z.ltb_spec d 0); [lia|]. destruct (Z.ltb_spec 1 d); [reflexivity|lia].
  - intros d Hd. unfold poly_estimate. rewrite L, Nat.eqb_refl. cbn [negb]. unfold poly_degree. destruct (Z.ltb_spec d 0).
    + exists []. split; [reflexivity|]. intros x. now apply (C30_zero_polynomial d x).
    + assert (d = 0%Z) by lia. subst d. exists [0]. split; [reflexivity|]. intros x. unfold poly_value. change (poly_npars 0) with 1%nat. cbn [length Nat.eqb negb]. unfold polyval. cbn [fold_left]. f_equal. ring.
  - set (cut := Nat.max (length y / 10) 1). destruct (HA y) as [HP HS].
    exists (lstsq1 (take_idx r (firstn cut (argsort y))) (take_idx y (firstn cut (argsort y)))), (firstn cut (argsort y)), (skipn cut (argsort y)).
    split; [|split; [|split; [|split; [|split]]]].
    + unfold poly_estimate. change (poly_degree 1) with 1%Z. rewrite L, Nat.eqb_refl. reflexivity.
    + intros x. unfold poly_value. change (poly_npars 1) with 2%nat. cbn [length Nat.eqb negb]. unfold polyval. cbn [fold_left]. f_equal. ring.
    + rewrite firstn_skipn. exact HP.
    + rewrite firstn_length. f_equal. apply Permutation_length in HP. rewrite HP, seq_length. reflexivity.
    + intros i j Hi Hj. apply (sorted_firstn _ cut HS); [rewrite firstn_map; now apply (in_map (fun i => nth i y 0))|rewrite skipn_map; now apply (in_map (fun i => nth i y 0))].
    + intros s'. apply lstsq1_best.
Qed.
Print Assumptions C140_polynomial_estimate.

(** If those points lie on a line through the origin, that line is found. *)
Theorem C140_exact_under_signal :
  forall argsort r y s, argsort_of argsort -> length r = length y -> y <> [] ->
    (* the points whose value is among the least tenth carry no signal *)
    (forall i, (i < length y)%nat -> (exists chosen rest, Permutation (chosen ++ rest) (seq 0 (length y)) /\
        length chosen = Nat.max (length y / 10) 1 /\ In i chosen /\
        (forall j k, In j chosen -> In k rest -> nth j y 0 <= nth k y 0)) -> nth i y 0 = s * nth i r 0 /\ nth i r 0 <> 0) ->
    poly_estimate argsort 1 r y = Ok [s; 0].
Proof.
  intros argsort r y s HA L Ny H. destruct (C140_polynomial_estimate argsort r y HA L) as (_ & _ & s' & chosen & rest & E & _ & P & Lc & Lo & B).
  rewrite E. f_equal. f_equal. assert (Lpos : (0 < length y)%nat) by (destruct y; [contradiction|cbn; lia]).
  assert (Lc' : length chosen = Nat.max (length y / 10) 1).
  { rewrite Lc. apply Nat.min_l. assert (length y / 10 <= length y)%nat by (apply Nat.div_le_upper_bound; lia). lia. }
  assert (Hc : forall i, In i chosen -> nth i y 0 = s * nth i r 0 /\ nth i r 0 <> 0).
  { intros i Hi. apply H.
    - assert (I : In i (seq 0 (length y))) by (eapply Permutation_in; [exact P|apply in_or_app; now left]). apply in_seq in I. lia.
    - exists chosen, rest. repeat split; assumption. }
  assert (Z : misfit r y chosen s = 0).
  { unfold misfit. clear - Hc. induction chosen as [|i l IH]; cbn [map fold_right]; [reflexivity|].
    rewrite IH by (intros; apply Hc; now right). destruct (Hc i (or_introl eq_refl)) as [-> _]. ring. }
  specialize (B s). rewrite Z in B. destruct chosen as [|i l]; [cbn in Lc'; lia|].
  unfold misfit in B. cbn [map fold_right] in B. destruct (Hc i (or_introl eq_refl)) as [Ei Ni]. rewrite Ei in B.
  assert (T : 0 <= fold_right Rplus 0 (map (fun i => (nth i y 0 - s' * nth i r 0) ^ 2) l)).
  { clear. induction l as [|j l IH]; cbn [map fold_right]; [lra|]. pose proof (pow2_ge_0 (nth j y 0 - s' * nth j r 0)). lra. }
  assert (Q : (s * nth i r 0 - s' * nth i r 0) ^ 2 = 0) by (pose proof (pow2_ge_0 (s * nth i r 0 - s' * nth i r 0)); lra).
  replace ((s * nth i r 0 - s' * nth i r 0) ^ 2) with (Rsqr ((s - s') * nth i r 0)) in Q by (unfold Rsqr; ring).
  apply Rsqr_0_uniq in Q. apply Rmult_integral in Q. destruct Q as [Q|Q]; [lra|contradiction].
Qed.
Print Assumptions C140_exact_under_signal.

(** An argsort exists, and data meeting the hypotheses. *)
Fixpoint insert_idx (y : list R) (i : nat) (l : list nat) : list nat :=
  match l with
  | [] => [i]
  | j :: t => if Rle_dec (nth i y 0) (nth j y 0) then i :: l else j :: insert_idx y i t
  end.
Definition argsort_ex (y : list R) : list nat := fold_right (insert_idx y) [] (seq 0 (length y)).

Lemma insert_perm y i l : Permutation (insert_idx y i l) (i :: l).
Proof.
  induction l as [|j l IH]; cbn; [reflexivity|]. destruct (Rle_dec _ _); [reflexivity|].
  rewrite IH. apply perm_swap.
Qed.
Lemma insert_sorted y i l : StronglySorted Rle (map (fun k => nth k y 0) l) -> StronglySorted Rle (map (fun k => nth k y 0) (insert_idx y i l)).
Proof.
  induction l as [|j l IH]; intros H; cbn; [repeat constructor|]. inversion H as [|? ? H1 H2]; subst. destruct (Rle_dec _ _) as [L|L]; cbn.
  - constructor; [exact H|]. constructor; [exact L|]. rewrite Forall_forall in *. intros x Hx. specialize (H2 x Hx). lra.
  - constructor; [now apply IH|]. rewrite Forall_forall in *. intros x Hx. apply in_map_iff in Hx as (k & <- & Hk).
    apply (Permutation_in _ (insert_perm y i l)) in Hk. destruct Hk as [<-|Hk]; [lra|]. apply H2. now apply (in_map (fun k => nth k y 0)).
Qed.
Example argsort_ex_ok : argsort_of argsort_ex.
Proof.
  intros y. unfold argsort_ex. generalize (seq 0 (length y)). intros l. split.
  - induction l as [|i l IH]; cbn; [constructor|]. rewrite insert_perm. now constructor.
  - induction l as [|i l IH]; cbn; [constructor|]. now apply insert_sorted.
Qed.
Example C140_nonvacuous : poly_estimate argsort_ex 1 [1; 2; 3] [2; 50; 60] = Ok [2; 0].
Proof.
  apply C140_exact_under_signal; [exact argsort_ex_ok|reflexivity|discriminate|].
  intros i Hi (chosen & rest & P & Lc & Ii & Lo). cbn in Hi, Lc.
  assert (I0 : In 0%nat (chosen ++ rest)) by (apply (Permutation_in _ (Permutation_sym P)); cbn; now left).
  destruct chosen as [|a [|b chosen]]; try discriminate Lc. destruct Ii as [<-|[]].
  cbn in I0. destruct I0 as [->|I0]; [cbn; lra|].
  specialize (Lo a 0%nat (or_introl eq_refl) I0).
  destruct a as [|[|[|a]]]; cbn in Lo |- *; try lra. lia.
Qed.

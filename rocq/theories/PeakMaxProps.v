(** Property C28 (max). *)
From Coq Require Import Reals Lra Psatz.
From Coquelicot Require Import Coquelicot.
From Verif Require Import Prelude PeakFuncs PeakFuncsProofs PeakFuncsMore.
Open Scope R_scope.

Lemma gor_bell W p r : 0 < W -> degenerate p = false -> 0 < r ->
  gor_value W p r = Some (Rabs (p_area p) / (sigma_of W p * sqrt (2 * PI)) * bell (p_pos p) (sigma_of W p) r).
Proof.
  intros HW D Hr. rewrite gor_curve by (first [assumption | now apply Rgt_not_eq | now apply Rlt_not_eq]). rewrite (Rabs_pos_eq r) by lra. unfold normal_curve, bell. f_equal.
  unfold Rdiv. ring.
Qed.
Lemma gor_bell_neg W p r : 0 < W -> degenerate p = false -> r < 0 ->
  gor_value W p r = Some (Rabs (p_area p) / (sigma_of W p * sqrt (2 * PI)) * bell (- p_pos p) (sigma_of W p) (- r)).
Proof.
  intros HW D Hr. rewrite gor_curve by (first [assumption | now apply Rgt_not_eq | now apply Rlt_not_eq]). rewrite (Rabs_left r) by lra. unfold normal_curve, bell. f_equal.
  replace ((- r - - p_pos p) ^ 2) with ((r - p_pos p) ^ 2) by ring. unfold Rdiv. ring.
Qed.
Lemma amp_pos W p : 0 < W -> degenerate p = false -> p_area p <> 0 ->
  0 < Rabs (p_area p) / (sigma_of W p * sqrt (2 * PI)).
Proof.
  intros HW D Ha. unfold Rdiv. apply Rmult_lt_0_compat; [now apply Rabs_pos_lt|]. apply Rinv_0_lt_compat.
  apply Rmult_lt_0_compat; [now apply sigma_pos|]. apply sqrt_lt_R0. pose proof PI_RGT_0. lra.
Qed.

Lemma gor_max_eq W p : 0 < W ->
  gor_max W p = if Rle_dec (p_pos p ^ 2) (4 * sigma_of W p ^ 2) then Err ValueError
                else Ok (rplus (p_pos p) (sigma_of W p), gor_value W p (rplus (p_pos p) (sigma_of W p))).
Proof. intros HW. unfold gor_max. rewrite msa_eq. reflexivity. Qed.

(** Physical peaks (positive position, non-zero width and area).  If max() returns,
    the curve strictly increases up to the returned position (from the other
    stationary point r0, where it has a local minimum) and strictly decreases after
    it, for ever; the returned height is the value there. *)
Theorem C28_gaussianoverr_max :
  forall W p rmax h, 0 < W -> 0 < p_pos p -> p_area p <> 0 -> degenerate p = false ->
    gor_max W p = Ok (rmax, h) ->
    exists f r0, (forall r, 0 < r -> gor_value W p r = Some (f r)) /\ 0 < r0 < rmax /\ h = Some (f rmax) /\
      (forall a b, r0 <= a < b -> b <= rmax -> f a < f b) /\
      (forall a b, rmax <= a < b -> f b < f a) /\
      (forall r, r0 <= r -> f r <= f rmax) /\
      derivable_pt_lim f rmax 0.
Proof.
  intros W p rmax h HW Hm Ha D. rewrite gor_max_eq by exact HW.
  destruct (Rle_dec _ _) as [|N]; [discriminate|]. intros [= <- <-].
  set (mu := p_pos p) in *. set (s := sigma_of W p) in *.
  assert (N' : 4 * s ^ 2 < mu ^ 2) by lra. assert (Hs : 0 < s) by (now apply sigma_pos).
  pose proof (roots_pos mu s Hm Hs N') as P0. pose proof (roots_order mu s N') as O.
  pose proof (amp_pos W p HW D Ha) as A. fold s in A. set (A0 := Rabs (p_area p) / (s * sqrt (2 * PI))) in *.
  destruct (bell_shape mu s Hm Hs N') as (B1 & B2 & B3).
  exists (fun r => A0 * bell mu s r), (rminus mu s).
  assert (F : forall r, 0 < r -> gor_value W p r = Some (A0 * bell mu s r)) by (intros; now apply gor_bell).
  split; [exact F|]. split; [lra|]. split; [apply F; lra|].
  assert (I1 : forall a b, rminus mu s <= a < b -> b <= rplus mu s -> A0 * bell mu s a < A0 * bell mu s b).
  { intros a b H1 H2. apply Rmult_lt_compat_l; [exact A|]. apply B2; lra. }
  assert (I2 : forall a b, rplus mu s <= a < b -> A0 * bell mu s b < A0 * bell mu s a).
  { intros a b H1. apply Rmult_lt_compat_l; [exact A|]. apply B3; lra. }
  split; [exact I1|]. split; [exact I2|]. split.
  - intros r Hr. destruct (Rtotal_order r (rplus mu s)) as [L|[->|L]].
    + left. apply I1; lra.
    + right. reflexivity.
    + left. apply I2; lra.
  - apply is_derive_Reals. evar (l : R). replace 0 with l.
    + apply is_derive_scal. apply bell_derive; [exact Hs|lra].
    + unfold l. rewrite roots by exact N'. unfold Rdiv. ring.
Qed.
Print Assumptions C28_gaussianoverr_max.

(** max() raises ValueError exactly when a physical peak has no local maximum: the
    curve then strictly decreases over all r > 0. *)
Theorem C28_gaussianoverr_no_max :
  forall W p, 0 < W -> 0 < p_pos p -> p_area p <> 0 -> degenerate p = false ->
    (exists e, gor_max W p = Err e) <->
    (exists f, (forall r, 0 < r -> gor_value W p r = Some (f r)) /\ forall a b, 0 < a < b -> f b < f a).
Proof.
  intros W p HW Hm Ha D.
  set (mu := p_pos p) in *. set (s := sigma_of W p) in *.
  assert (Hs : 0 < s) by (now apply sigma_pos).
  pose proof (amp_pos W p HW D Ha) as A. fold s in A. set (A0 := Rabs (p_area p) / (s * sqrt (2 * PI))) in *.
  assert (F : forall r, 0 < r -> gor_value W p r = Some (A0 * bell mu s r)) by (intros; now apply gor_bell).
  rewrite gor_max_eq by exact HW. fold mu s. split.
  - intros [e H]. destruct (Rle_dec _ _) as [L|N]; [|discriminate].
    exists (fun r => A0 * bell mu s r). split; [exact F|]. intros a b Hab. apply Rmult_lt_compat_l; [exact A|].
    apply bell_noMax; auto; lra.
  - intros (f & Ff & Dec). destruct (Rle_dec _ _) as [L|N]; [eauto|]. exfalso.
    assert (N' : 4 * s ^ 2 < mu ^ 2) by lra.
    destruct (bell_shape mu s Hm Hs N') as (_ & B2 & _).
    pose proof (roots_pos mu s Hm Hs N') as P0. pose proof (roots_order mu s N') as O.
    specialize (B2 (rminus mu s) (rplus mu s)). specialize (Dec (rminus mu s) (rplus mu s)).
    pose proof (Ff (rminus mu s) P0) as E1. pose proof (Ff (rplus mu s) ltac:(lra)) as E2.
    rewrite F in E1, E2 by lra. injection E1 as E1. injection E2 as E2. rewrite <- E1, <- E2 in Dec.
    specialize (Dec ltac:(lra)). apply Rmult_lt_reg_l in Dec; [|exact A]. specialize (B2 ltac:(lra) O ltac:(lra)). lra.
Qed.
Print Assumptions C28_gaussianoverr_no_max.

(** A peak at a negative position (nothing prevents a fit from producing one): the
    returned point is a strict local minimum of the curve. *)
Theorem C79_negative_position_refuted :
  forall W p, 0 < W -> p_pos p < 0 -> p_area p <> 0 -> degenerate p = false ->
    4 * sigma_of W p ^ 2 < p_pos p ^ 2 ->
    exists r h, gor_max W p = Ok (r, Some h) /\ r < 0 /\
      exists lo, lo < r /\ forall r', lo <= r' < 0 -> r' <> r -> exists v, gor_value W p r' = Some v /\ h < v.
Proof.
  intros W p HW Hm Ha D N.
  set (mu := p_pos p) in *. set (s := sigma_of W p) in *.
  assert (Hs : 0 < s) by (now apply sigma_pos).
  assert (Hm' : 0 < - mu) by lra. assert (N' : 4 * s ^ 2 < (- mu) ^ 2) by (replace ((- mu) ^ 2) with (mu ^ 2) by ring; exact N).
  pose proof (roots_pos (- mu) s Hm' Hs N') as P0. pose proof (roots_order (- mu) s N') as O.
  assert (E : rplus mu s = - rminus (- mu) s).
  { unfold rplus, rminus. replace ((- mu) ^ 2) with (mu ^ 2) by ring. lra. }
  pose proof (amp_pos W p HW D Ha) as A. fold s in A. set (A0 := Rabs (p_area p) / (s * sqrt (2 * PI))) in *.
  assert (F : forall r, r < 0 -> gor_value W p r = Some (A0 * bell (- mu) s (- r))) by (intros; now apply gor_bell_neg).
  destruct (bell_shape (- mu) s Hm' Hs N') as (B1 & B2 & _).
  exists (rplus mu s), (A0 * bell (- mu) s (rminus (- mu) s)).
  rewrite gor_max_eq by exact HW. fold mu s. destruct (Rle_dec _ _) as [L|_]; [lra|].
  split; [rewrite F by lra; rewrite E, Ropp_involutive; reflexivity|]. split; [lra|].
  exists (- rplus (- mu) s). split; [lra|]. intros r' Hr' Hne. exists (A0 * bell (- mu) s (- r')). split; [apply F; lra|].
  apply Rmult_lt_compat_l; [exact A|].
  destruct (Rtotal_order (- r') (rminus (- mu) s)) as [L|[L|L]]; [apply B1; lra|lra|apply B2; lra].
Qed.
Print Assumptions C79_negative_position_refuted.

(** Gaussian: global maximum at the position. *)
Theorem C28_gaussian_max :
  forall W p, 0 < W -> degenerate p = false ->
    exists h, gaussian_max W p = Ok (p_pos p, Some h) /\
      forall r, exists v, gaussian_value W p r = Some v /\ v <= h /\ (p_area p <> 0 -> r <> p_pos p -> v < h).
Proof.
  intros W p HW D. unfold gaussian_max. rewrite msa_eq.
  exists (normal_curve (p_pos p) (sigma_of W p) (Rabs (p_area p)) (p_pos p)).
  split; [rewrite gaussian_curve by auto; reflexivity|]. intros r.
  exists (normal_curve (p_pos p) (sigma_of W p) (Rabs (p_area p)) r). split; [now rewrite gaussian_curve by auto|].
  unfold normal_curve. pose proof (sigma_pos W HW p D) as Sp.
  set (A := Rabs (p_area p) / (sigma_of W p * sqrt (2 * PI))).
  assert (A0 : 0 <= A).
  { unfold A, Rdiv. apply Rmult_le_pos; [apply Rabs_pos|]. left. apply Rinv_0_lt_compat, Rmult_lt_0_compat; [exact Sp|].
    apply sqrt_lt_R0. pose proof PI_RGT_0. lra. }
  assert (S2 : 0 < 2 * sigma_of W p ^ 2) by (assert (0 < sigma_of W p ^ 2) by (apply pow_lt; exact Sp); lra).
  replace (- (p_pos p - p_pos p) ^ 2 / (2 * sigma_of W p ^ 2)) with 0 by (field; lra). rewrite exp_0.
  assert (L : - (r - p_pos p) ^ 2 / (2 * sigma_of W p ^ 2) <= 0).
  { unfold Rdiv. rewrite Ropp_mult_distr_l_reverse. apply Rge_le, Ropp_0_le_ge_contravar, Rmult_le_pos; [apply pow2_ge_0|].
    left. now apply Rinv_0_lt_compat. }
  split.
  - apply Rmult_le_compat_l; [exact A0|]. destruct L as [L|L]; [left; rewrite <- exp_0; now apply exp_increasing|right; now rewrite L, exp_0].
  - intros Ha Hr. apply Rmult_lt_compat_l; [apply amp_pos; auto|]. rewrite <- exp_0. apply exp_increasing.
    unfold Rdiv. rewrite Ropp_mult_distr_l_reverse. apply Ropp_lt_gt_0_contravar, Rmult_lt_0_compat; [|now apply Rinv_0_lt_compat].
    rewrite <- Rsqr_pow2. apply Rsqr_pos_lt. lra.
Qed.
Print Assumptions C28_gaussian_max.

(** A peak at 3 with maximal width 0.7, as in a PDF. *)
Example C28_nonvacuous : exists r h, gor_max (7/10) (P3 3 0 1) = Ok (r, h) /\ degenerate (P3 3 0 1) = false.
Proof.
  rewrite gor_max_eq by lra. cbn [p_pos].
  assert (S : sigma_of (7/10) (P3 3 0 1) ^ 2 < 1).
  { rewrite sigma_sqr by lra. cbn [p_wid]. rewrite sin_0.
    assert (1 / 2 < ln 2). { assert (ln 2 > 1/2); [|lra]. apply exp_lt_inv. rewrite exp_ln by lra.
      assert (exp (1/2) * exp (1/2) <= 3). { rewrite <- exp_plus. replace (1/2 + 1/2) with 1 by lra. apply exp_le_3. }
      pose proof (exp_pos (1/2)). nra. }
    apply Rmult_lt_reg_r with (8 * ln 2); [lra|]. unfold Rdiv. rewrite Rmult_assoc, Rinv_l by lra. lra. }
  destruct (Rle_dec _ _); [exfalso; lra|]. do 2 eexists. split; [reflexivity|].
  apply degenerate_false. cbn. rewrite sin_0. lra.
Qed.
Example C28_negative_nonvacuous : degenerate (P3 (-3) 0 1) = false /\ 4 * sigma_of (7/10) (P3 (-3) 0 1) ^ 2 < p_pos (P3 (-3) 0 1) ^ 2.
Proof.
  destruct C28_nonvacuous as (r & h & E & _). rewrite gor_max_eq in E by lra. cbn [p_pos] in *.
  split; [apply degenerate_false; cbn; rewrite sin_0; lra|].
  destruct (Rle_dec _ _) as [|N] in E; [discriminate|].
  assert (sigma_of (7 / 10) (P3 (-3) 0 1) = sigma_of (7 / 10) (P3 3 0 1)) as -> by reflexivity. lra.
Qed.

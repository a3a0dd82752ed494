(** Curves in terms of mu, sigma, area; derivatives; maxima; rescaling. *)
From Coq Require Import Reals Lra Psatz.
From Coquelicot Require Import Coquelicot.
From Verif Require Import Prelude PeakFuncs PeakFuncsProofs.
Open Scope R_scope.

(** Small specification: the textbook curves. *)
Definition normal_curve (mu sigma area r : R) : R :=
  area / (sigma * sqrt (2 * PI)) * exp (- (r - mu) ^ 2 / (2 * sigma ^ 2)).

Section W.
Variable W : R.
Hypothesis HW : 0 < W.

Definition sigma_of (p : pars3) : R := width_out W MuSigmaArea (p_wid p).

Lemma sigma_normal q : width_out W MuSigmaArea (normal_width q) = width_out W MuSigmaArea q.
Proof. unfold width_out. now rewrite sin_normal. Qed.

Lemma msa_eq p : msa W p = (p_pos p, sigma_of p, Rabs (p_area p)).
Proof. unfold msa, sigma_of. now rewrite sigma_normal. Qed.

Lemma sigma_sqr p : sigma_of p ^ 2 = W ^ 2 * ((sin (p_wid p) + 1) / 2) / (8 * ln 2).
Proof.
  unfold sigma_of. rewrite sigma_out. unfold Rdiv. rewrite Rpow_mult_distr, fwhm_sqr by exact HW.
  rewrite pow_inv, s2f_sqr. reflexivity.
Qed.

Lemma sigma_nonneg p : 0 <= sigma_of p.
Proof.
  unfold sigma_of. rewrite sigma_out. pose proof (fwhm_range W HW (p_wid p)). pose proof s2f_pos.
  unfold Rdiv. apply Rmult_le_pos; [lra|]. left. now apply Rinv_0_lt_compat.
Qed.

Lemma sigma_pos p : degenerate p = false -> 0 < sigma_of p.
Proof.
  intros H. apply degenerate_false in H. pose proof (sigma_nonneg p) as N. pose proof (sigma_sqr p) as S2.
  destruct (Rle_lt_or_eq_dec _ _ N) as [L|E]; [exact L|]. exfalso. rewrite <- E in S2.
  pose proof ln2_pos.
  assert (0 < W ^ 2 * ((sin (p_wid p) + 1) / 2) / (8 * ln 2)).
  { unfold Rdiv. apply Rmult_lt_0_compat; [|apply Rinv_0_lt_compat; lra].
    apply Rmult_lt_0_compat; [apply pow_lt; exact HW|lra]. }
  lra.
Qed.

Lemma c2_sigma p : c2 W * (sin (p_wid p) + 1) = 2 * sigma_of p ^ 2.
Proof. rewrite sigma_sqr. unfold c2. pose proof ln2_pos. field. lra. Qed.

Lemma c1_sigma p : c1 W * sqrt (sin (p_wid p) + 1) = sigma_of p * sqrt (2 * PI).
Proof.
  pose proof PI_RGT_0. pose proof ln2_pos. pose proof (sinp_nonneg (p_wid p)).
  apply Rsqr_inj.
  - apply Rmult_le_pos; [left; now apply c1_pos|apply sqrt_pos].
  - apply Rmult_le_pos; [apply sigma_nonneg|apply sqrt_pos].
  - rewrite !Rsqr_mult, !Rsqr_sqrt by lra. rewrite !Rsqr_pow2, sigma_sqr. unfold c1.
    rewrite Rpow_mult_distr, pow2_sqrt.
    + field. lra.
    + unfold Rdiv. apply Rmult_le_pos; [lra|]. left. apply Rinv_0_lt_compat. lra.
Qed.

Lemma gaussian_curve p r : degenerate p = false ->
  gaussian_value W p r = Some (normal_curve (p_pos p) (sigma_of p) (Rabs (p_area p)) r).
Proof.
  intros H. unfold gaussian_value. rewrite H. rewrite c1_sigma, c2_sigma. reflexivity.
Qed.

Lemma gor_curve p r : degenerate p = false -> r <> 0 ->
  gor_value W p r = Some (normal_curve (p_pos p) (sigma_of p) (Rabs (p_area p)) r / Rabs r).
Proof.
  intros H Hr. unfold gor_value. rewrite H. destruct (Req_EM_T r 0); [contradiction|].
  rewrite Rmult_assoc, c1_sigma, c2_sigma. unfold normal_curve. f_equal.
  pose proof (Rabs_no_R0 r Hr). pose proof (sigma_pos p H).
  assert (0 < sqrt (2 * PI)) by (apply sqrt_lt_R0; pose proof PI_RGT_0; lra).
  field. repeat split; lra.
Qed.

End W.

(** ** Monotonicity of area/r * gaussian on r > 0 *)
Definition bell (mu s r : R) : R := exp (- (r - mu) ^ 2 / (2 * s ^ 2)) / r.

Lemma bell_derive mu s r : 0 < s -> 0 < r ->
  is_derive (bell mu s) r (- bell mu s r / (r * s ^ 2) * (r ^ 2 - mu * r + s ^ 2)).
Proof.
  intros Hs Hr. unfold bell. auto_derive; [lra|].
  change (- ((r + - mu) * ((r + - mu) * 1)) * / (2 * (s * (s * 1)))) with (- (r - mu) ^ 2 / (2 * s ^ 2)).
  field. split; lra.
Qed.

Lemma bell_pos mu s r : 0 < r -> 0 < bell mu s r.
Proof.
  intros. unfold bell, Rdiv. apply Rmult_lt_0_compat; [apply exp_pos|now apply Rinv_0_lt_compat].
Qed.

Lemma bell_mvt mu s a b : 0 < s -> 0 < a -> a < b ->
  exists c, a < c < b /\ 0 < bell mu s c / (c * s ^ 2) /\
    bell mu s b - bell mu s a = - (bell mu s c / (c * s ^ 2) * (c ^ 2 - mu * c + s ^ 2) * (b - a)).
Proof.
  intros Hs Ha Hab.
  destruct (MVT_cor2 (bell mu s) (fun r => - bell mu s r / (r * s ^ 2) * (r ^ 2 - mu * r + s ^ 2)) a b Hab) as (c & E & Hc).
  - intros c Hc. apply is_derive_Reals. apply bell_derive; lra.
  - exists c. split; [exact Hc|]. split.
    + unfold Rdiv. apply Rmult_lt_0_compat; [apply bell_pos; lra|]. apply Rinv_0_lt_compat.
      apply Rmult_lt_0_compat; [lra|]. apply pow_lt. exact Hs.
    + rewrite E. field. lra.
Qed.

Lemma bell_dec_of mu s a b : 0 < s -> 0 < a -> a < b ->
  (forall c, a < c < b -> 0 < c ^ 2 - mu * c + s ^ 2) -> bell mu s b < bell mu s a.
Proof.
  intros Hs Ha Hab H. destruct (bell_mvt mu s a b Hs Ha Hab) as (c & Hc & Hp & E).
  specialize (H c Hc).
  assert (0 < bell mu s c / (c * s ^ 2) * (c ^ 2 - mu * c + s ^ 2) * (b - a)); [|lra].
  apply Rmult_lt_0_compat; [apply Rmult_lt_0_compat; assumption|lra].
Qed.
Lemma bell_inc_of mu s a b : 0 < s -> 0 < a -> a < b ->
  (forall c, a < c < b -> c ^ 2 - mu * c + s ^ 2 < 0) -> bell mu s a < bell mu s b.
Proof.
  intros Hs Ha Hab H. destruct (bell_mvt mu s a b Hs Ha Hab) as (c & Hc & Hp & E).
  specialize (H c Hc).
  assert (0 < bell mu s c / (c * s ^ 2) * - (c ^ 2 - mu * c + s ^ 2) * (b - a)); [|lra].
  apply Rmult_lt_0_compat; [apply Rmult_lt_0_compat; lra|lra].
Qed.

(** The two stationary points. *)
Definition rplus (mu s : R) := 1 / 2 * (mu + sqrt (mu ^ 2 - 4 * s ^ 2)).
Definition rminus (mu s : R) := 1 / 2 * (mu - sqrt (mu ^ 2 - 4 * s ^ 2)).

Lemma roots mu s : 4 * s ^ 2 < mu ^ 2 ->
  forall r, r ^ 2 - mu * r + s ^ 2 = (r - rminus mu s) * (r - rplus mu s).
Proof.
  intros H r. unfold rminus, rplus. set (d := sqrt (mu ^ 2 - 4 * s ^ 2)).
  assert (D : d ^ 2 = mu ^ 2 - 4 * s ^ 2) by (unfold d; apply pow2_sqrt; lra).
  replace ((r - 1 / 2 * (mu - d)) * (r - 1 / 2 * (mu + d))) with (r ^ 2 - mu * r + (mu ^ 2 - d ^ 2) / 4) by field.
  rewrite D. field.
Qed.

Lemma roots_order mu s : 4 * s ^ 2 < mu ^ 2 -> rminus mu s < rplus mu s.
Proof.
  intros H. unfold rminus, rplus. assert (0 < sqrt (mu ^ 2 - 4 * s ^ 2)) by (apply sqrt_lt_R0; lra). lra.
Qed.
Lemma roots_prod mu s : 4 * s ^ 2 < mu ^ 2 -> rminus mu s * rplus mu s = s ^ 2.
Proof. intros H. pose proof (roots mu s H 0). nra. Qed.
Lemma roots_sum mu s : rminus mu s + rplus mu s = mu.
Proof. unfold rminus, rplus. lra. Qed.
Lemma roots_pos mu s : 0 < mu -> 0 < s -> 4 * s ^ 2 < mu ^ 2 -> 0 < rminus mu s.
Proof.
  intros Hm Hs H. pose proof (roots_prod mu s H). pose proof (roots_sum mu s). pose proof (roots_order mu s H).
  assert (0 < s ^ 2) by (apply pow_lt; exact Hs). assert (0 < rplus mu s) by lra.
  apply Rmult_lt_reg_r with (rplus mu s); [assumption|]. lra.
Qed.

Lemma bell_shape mu s : 0 < mu -> 0 < s -> 4 * s ^ 2 < mu ^ 2 ->
  (forall a b, 0 < a -> a < b -> b <= rminus mu s -> bell mu s b < bell mu s a) /\
  (forall a b, rminus mu s <= a -> a < b -> b <= rplus mu s -> bell mu s a < bell mu s b) /\
  (forall a b, rplus mu s <= a -> a < b -> bell mu s b < bell mu s a).
Proof.
  intros Hm Hs H. pose proof (roots_pos mu s Hm Hs H) as Pm. pose proof (roots_order mu s H) as O.
  repeat split; intros a b H1 H2; intros.
  - apply bell_dec_of; auto. intros c Hc. rewrite roots by exact H.
    replace ((c - rminus mu s) * (c - rplus mu s)) with ((rminus mu s - c) * (rplus mu s - c)) by ring.
    apply Rmult_lt_0_compat; lra.
  - apply bell_inc_of; auto; [lra|]. intros c Hc. rewrite roots by exact H.
    assert (0 < (c - rminus mu s) * (rplus mu s - c)) by (apply Rmult_lt_0_compat; lra). lra.
  - apply bell_dec_of; auto; [lra|]. intros c Hc. rewrite roots by exact H. apply Rmult_lt_0_compat; lra.
Qed.

Lemma bell_noMax mu s : 0 < s -> mu ^ 2 <= 4 * s ^ 2 \/ mu <= 0 ->
  forall a b, 0 < a -> a < b -> bell mu s b < bell mu s a.
Proof.
  intros Hs Hm.
  assert (Q : forall c, 0 < c -> c <> mu / 2 -> 0 < c ^ 2 - mu * c + s ^ 2).
  { intros c Hc Hn. assert (0 < s ^ 2) by (apply pow_lt; exact Hs). destruct Hm as [Hm|Hm].
    - replace (c ^ 2 - mu * c + s ^ 2) with ((c - mu / 2) ^ 2 + (s ^ 2 - mu ^ 2 / 4)) by field.
      assert (0 < (c - mu / 2) ^ 2); [|lra]. rewrite <- Rsqr_pow2. apply Rsqr_pos_lt. lra.
    - assert (0 < c ^ 2) by (apply pow_lt; exact Hc). assert (0 <= - mu * c) by (apply Rmult_le_pos; lra). lra. }
  intros a b Ha Hab.
  destruct (Rlt_le_dec a (mu / 2)) as [L1|L1]; [destruct (Rlt_le_dec (mu / 2) b) as [L2|L2]|].
  - apply Rlt_trans with (bell mu s (mu / 2)); apply bell_dec_of; auto; try lra; intros c Hc; apply Q; lra.
  - apply bell_dec_of; auto. intros c Hc. apply Q; lra.
  - apply bell_dec_of; auto. intros c Hc. apply Q; lra.
Qed.

(** Proofs about the initial estimates. *)
From Coq Require Import Reals Lra Psatz Sorting.Sorted.
From Verif Require Import Prelude PeakFuncs PeakFuncsProofs PeakFuncsMore Baselines Estimate.
Open Scope R_scope.

(** The points of the data that lie above zero. *)
Definition above_zero (p : R * R) : bool := if Rlt_dec 0 (snd p) then true else false.
Definition positive_points (r y : list R) : list (R * R) := filter above_zero (combine r y).

Lemma filter_map_S (f : nat -> bool) l : filter f (map S l) = map S (filter (fun i => f (S i)) l).
Proof. induction l as [|a l IH]; cbn; [reflexivity|]. destruct (f (S a)); cbn; now rewrite IH. Qed.

Lemma usable_cons b y : usable_idx (b :: y) = (if Rlt_dec 0 b then [0%nat] else []) ++ map S (usable_idx y).
Proof.
  unfold usable_idx. cbn [length]. change (seq 0 (S (length y))) with (0%nat :: seq 1 (length y)). rewrite <- seq_shift.
  cbn [filter nth]. rewrite filter_map_S. cbn [nth]. destruct (Rlt_dec 0 b); reflexivity.
Qed.

Lemma take_shift a l idx : take_idx (a :: l) (map S idx) = take_idx l idx.
Proof. unfold take_idx. rewrite map_map. reflexivity. Qed.

Lemma usable_points r y : length r = length y ->
  take_idx r (usable_idx y) = map fst (positive_points r y) /\
  take_idx y (usable_idx y) = map snd (positive_points r y) /\
  length (usable_idx y) = length (positive_points r y).
Proof.
  revert y. induction r as [|a r IH]; intros [|b y] L; try discriminate L; [repeat split|].
  injection L as L. destruct (IH y L) as (A & B & C). rewrite usable_cons.
  change (positive_points (a :: r) (b :: y)) with (if (if Rlt_dec 0 b then true else false) then (a, b) :: positive_points r y else positive_points r y).
  destruct (Rlt_dec 0 b); cbn [app map length fst snd].
  - assert (T : forall z l idx, take_idx (z :: l) (0%nat :: map S idx) = z :: take_idx l idx).
    { intros z l idx. rewrite <- (take_shift z l idx). reflexivity. }
    rewrite !T, map_length. repeat split; f_equal; assumption.
  - rewrite !take_shift, map_length. repeat split; assumption.
Qed.

Lemma filter_in_pos r y p : In p (positive_points r y) -> 0 < snd p.
Proof. intros H. apply filter_In in H as [_ H]. unfold above_zero in H. destruct (Rlt_dec 0 (snd p)); [assumption|discriminate]. Qed.

Lemma sorted_positive r y : StronglySorted Rlt r -> StronglySorted Rlt (map fst (positive_points r y)).
Proof.
  revert y. induction r as [|a r IH]; intros [|b y] H; try constructor.
  unfold positive_points. cbn [combine filter]. inversion H as [|? ? H1 H2]; subst.
  destruct (above_zero (a, b)); [|now apply IH]. cbn [map fst]. constructor; [now apply IH|].
  rewrite Forall_forall in *. intros x Hx. apply H2. apply in_map_iff in Hx as ((u, v) & <- & Hx). apply filter_In in Hx as [Hx _].
  now apply in_combine_l in Hx.
Qed.

(** *** Extremes of a list *)
Lemma rmin_spec l : l <> [] -> In (rmin_list l) l /\ forall x, In x l -> rmin_list l <= x.
Proof.
  intros N. unfold rmin_list.
  assert (G : forall d l, (In (fold_right Rmin d l) (d :: l)) /\ forall x, In x (d :: l) -> fold_right Rmin d l <= x).
  { clear. intros d l. induction l as [|a l [I L]]; cbn [fold_right].
    - split; [now left|]. intros x [->|[]]. lra.
    - split.
      + unfold Rmin at 1. destruct (Rle_dec a _); [right; now left|]. destruct I as [E|I]; [left; exact E|right; right; exact I].
      + intros x Hx. pose proof (Rmin_l a (fold_right Rmin d l)). pose proof (Rmin_r a (fold_right Rmin d l)).
        destruct Hx as [E|[E|Hx]].
        * subst x. specialize (L d (or_introl eq_refl)). lra.
        * subst x. lra.
        * specialize (L x (or_intror Hx)). lra. }
  destruct l as [|a l]; [contradiction|]. cbn [hd]. destruct (G a (a :: l)) as [I L]. split.
  - destruct I as [E|I]; [rewrite <- E; now left|exact I].
  - intros x Hx. apply L. now right.
Qed.

Lemma rmax_spec l : l <> [] -> In (rmax_list l) l /\ forall x, In x l -> x <= rmax_list l.
Proof.
  intros N. unfold rmax_list.
  assert (G : forall d l, (In (fold_right Rmax d l) (d :: l)) /\ forall x, In x (d :: l) -> x <= fold_right Rmax d l).
  { clear. intros d l. induction l as [|a l [I L]]; cbn [fold_right].
    - split; [now left|]. intros x [->|[]]. lra.
    - split.
      + unfold Rmax at 1. destruct (Rle_dec a _); [|right; now left]. destruct I as [E|I]; [left; exact E|right; right; exact I].
      + intros x Hx. pose proof (Rmax_l a (fold_right Rmax d l)). pose proof (Rmax_r a (fold_right Rmax d l)).
        destruct Hx as [E|[E|Hx]].
        * subst x. specialize (L d (or_introl eq_refl)). lra.
        * subst x. lra.
        * specialize (L x (or_intror Hx)). lra. }
  destruct l as [|a l]; [contradiction|]. cbn [hd]. destruct (G a (a :: l)) as [I L]. split.
  - destruct I as [E|I]; [rewrite <- E; now left|exact I].
  - intros x Hx. apply L. now right.
Qed.

Lemma hd_in (l : list R) : l <> [] -> In (hd 0 l) l.
Proof. destruct l; [contradiction|now left]. Qed.
Lemma last_in (l : list R) : l <> [] -> In (last l 0) l.
Proof.
  induction l as [|a l IH]; [contradiction|intros _]. destruct l as [|b l]; [now left|]. right. apply IH. discriminate.
Qed.

Lemma sorted_ends l : StronglySorted Rlt l -> forall x, In x l -> hd 0 l <= x <= last l 0.
Proof.
  induction l as [|a l IH]; intros H x Hx; [destruct Hx|]. inversion H as [|? ? H1 H2]; subst. rewrite Forall_forall in H2. cbn [hd].
  destruct l as [|b l].
  - destruct Hx as [E|[]]. subst. cbn. lra.
  - change (last (a :: b :: l) 0) with (last (b :: l) 0). specialize (IH H1).
    destruct Hx as [E|Hx].
    + subst x. split; [lra|]. specialize (H2 b (or_introl eq_refl)). specialize (IH b (or_introl eq_refl)). lra.
    + specialize (H2 x Hx). specialize (IH x Hx). lra.
Qed.

Lemma sorted_strict_ends l : StronglySorted Rlt l -> (2 <= length l)%nat -> hd 0 l < last l 0.
Proof.
  intros H L. destruct l as [|a [|b l]]; cbn in L; try lia. inversion H as [|? ? H1 H2]; subst. rewrite Forall_forall in H2.
  change (last (a :: b :: l) 0) with (last (b :: l) 0). pose proof (H2 _ (last_in (b :: l) ltac:(discriminate))). exact H0.
Qed.

(** *** Weighted means *)
Lemma rsum_nonneg l : (forall x, In x l -> 0 <= x) -> 0 <= rsum l.
Proof.
  induction l as [|a l IH]; intros H; cbn; [lra|]. pose proof (H a (or_introl eq_refl)).
  assert (0 <= rsum l) by (apply IH; intros; apply H; now right). unfold rsum in *. lra.
Qed.

Lemma rsum_pos l : (forall x, In x l -> 0 <= x) -> (exists x, In x l /\ 0 < x) -> 0 < rsum l.
Proof.
  induction l as [|a l IH]; intros H (x & Hx & P); [destruct Hx|]. cbn. pose proof (H a (or_introl eq_refl)).
  assert (N : forall x, In x l -> 0 <= x) by (intros; apply H; now right). pose proof (rsum_nonneg l N). unfold rsum in *.
  destruct Hx as [->|Hx]; [lra|]. assert (0 < fold_right Rplus 0 l) by (apply IH; [exact N|eauto]). lra.
Qed.

Definition wsum (rs ws : list R) : R := rsum (map (fun rw => fst rw * snd rw) (combine rs ws)).

Lemma wsum_bounds lo hi rs ws : length rs = length ws -> (forall x, In x rs -> lo <= x <= hi) -> (forall w, In w ws -> 0 <= w) ->
  lo * rsum ws <= wsum rs ws <= hi * rsum ws.
Proof.
  revert ws. induction rs as [|a rs IH]; intros [|w ws] L H P; try discriminate L; unfold wsum; cbn; [lra|].
  injection L as L. assert (B := IH ws L ltac:(intros; apply H; now right) ltac:(intros; apply P; now right)).
  unfold wsum in B. pose proof (H a (or_introl eq_refl)). pose proof (P w (or_introl eq_refl)). unfold rsum in *. nra.
Qed.

Lemma weights_pos ys : ys <> [] -> rmin_list ys <> rmax_list ys -> 0 < rsum (map (fun y => (y - rmin_list ys) ^ 2) ys).
Proof.
  intros N D. apply rsum_pos.
  - intros x Hx. apply in_map_iff in Hx as (y & <- & _). apply pow2_ge_0.
  - exists ((rmax_list ys - rmin_list ys) ^ 2). split; [apply (in_map (fun y => (y - rmin_list ys) ^ 2)); now apply rmax_spec|].
    assert (rmax_list ys - rmin_list ys <> 0) by lra. specialize (proj2 (rmin_spec ys N) _ (proj1 (rmax_spec ys N))); intros. apply pow_lt. lra.
Qed.

(** *** The widths *)
Lemma ln_ratio_neg a b : 0 < a < b -> xdiv a b = Some (a / b) /\ xln (a / b) = Some (ln (a / b)) /\ ln (a / b) < 0.
Proof.
  intros H. assert (0 < a / b) by (apply Rdiv_lt_0_compat; lra). assert (a / b < 1) by (apply Rmult_lt_reg_r with b; [lra|]; unfold Rdiv; rewrite Rmult_assoc, Rinv_l by lra; lra).
  split; [|split].
  - unfold xdiv. destruct (Req_EM_T b 0); [lra|reflexivity].
  - unfold xln. destruct (Rlt_dec 0 (a / b)); [reflexivity|contradiction].
  - rewrite <- ln_1. apply ln_increasing; assumption.
Qed.

Lemma sigma_form d l : l < 0 -> (let! s := xdiv (- (1 / 2) * d ^ 2) l in xsqrt s) = Some (Rabs d * sqrt (- / (2 * l))).
Proof.
  intros L. unfold xdiv. destruct (Req_EM_T l 0); [lra|]. cbn [xbind].
  assert (0 < - / (2 * l)).
  { assert (/ (2 * l) < 0) by (apply Rinv_lt_0_compat; lra). lra. }
  replace (- (1 / 2) * d ^ 2 / l) with (d ^ 2 * (- / (2 * l))) by (field; lra).
  unfold xsqrt. destruct (Rlt_dec (d ^ 2 * - / (2 * l)) 0) as [B|B].
  - exfalso. assert (0 <= d ^ 2) by apply pow2_ge_0. assert (0 <= d ^ 2 * - / (2 * l)) by (apply Rmult_le_pos; lra). lra.
  - f_equal. rewrite sqrt_mult by (try apply pow2_ge_0; lra). f_equal. replace (d ^ 2) with (Rsqr d) by (unfold Rsqr; ring). apply sqrt_Rsqr_abs.
Qed.

Lemma sigma_side_ok c e e' ye mn mx : 0 < mn < mx -> mn <= ye <= mx ->
  exists s, sigma_side c e e' ye mn mx = Some s /\ 0 <= s /\ (e <> c -> 0 < s) /\ (ye = mx -> e' <> c -> 0 < s).
Proof.
  intros M Y. unfold sigma_side. destruct (Rlt_dec ye mx) as [L|L].
  - destruct (ln_ratio_neg ye mx ltac:(lra)) as (-> & E & N). cbn [xbind]. rewrite E. cbn [xbind]. rewrite sigma_form by exact N.
    assert (Q : 0 < sqrt (- / (2 * ln (ye / mx)))).
    { apply sqrt_lt_R0. assert (/ (2 * ln (ye / mx)) < 0) by (apply Rinv_lt_0_compat; lra). lra. }
    eexists. split; [reflexivity|]. split; [|split].
    + apply Rmult_le_pos; [apply Rabs_pos|lra].
    + intros D. apply Rmult_lt_0_compat; [apply Rabs_pos_lt; lra|exact Q].
    + intros; lra.
  - destruct (ln_ratio_neg mn mx M) as (-> & E & N). cbn [xbind]. rewrite E. cbn [xbind]. rewrite sigma_form by exact N.
    assert (Q : 0 < sqrt (- / (2 * ln (mn / mx)))).
    { apply sqrt_lt_R0. assert (/ (2 * ln (mn / mx)) < 0) by (apply Rinv_lt_0_compat; lra). lra. }
    pose proof (Rabs_pos (e - c)). pose proof (Rabs_pos (e' - c)).
    eexists. split; [reflexivity|]. split; [|split].
    + apply Rmult_le_pos; [apply Rabs_pos|lra].
    + intros D. assert (0 < Rabs (e - c)) by (apply Rabs_pos_lt; lra). apply Rmult_lt_0_compat; [apply Rabs_pos_lt; lra|exact Q].
    + intros _ D. assert (0 < Rabs (e' - c)) by (apply Rabs_pos_lt; lra). apply Rmult_lt_0_compat; [apply Rabs_pos_lt; lra|exact Q].
Qed.

Lemma position_width_ok rs ys : length rs = length ys -> (2 <= length rs)%nat -> StronglySorted Rlt rs -> (forall y, In y ys -> 0 < y) ->
  exists c w, position_width rs ys = Some (c, w) /\ hd 0 rs <= c <= last rs 0 /\ 0 < w.
Proof.
  intros L N St P. assert (Nr : rs <> []) by (destruct rs; cbn in N; [lia|discriminate]).
  assert (Ny : ys <> []) by (destruct ys; cbn in L; [lia|discriminate]).
  pose proof (sorted_strict_ends rs St N) as SE. pose proof ln2_pos as L2. pose proof s2f_pos as S2.
  unfold position_width. destruct (rmin_spec ys Ny) as [Imin Lmin]. destruct (rmax_spec ys Ny) as [Imax Lmax].
  destruct (Req_EM_T (rmin_list ys) (rmax_list ys)) as [E|E].
  - unfold xdiv. destruct (Req_EM_T (2 * ln 2) 0); [lra|]. cbn [xbind]. do 2 eexists. split; [reflexivity|]. split; [lra|].
    apply Rdiv_lt_0_compat; lra.
  - set (ws := map (fun y => (y - rmin_list ys) ^ 2) ys). fold (wsum rs ws).
    assert (PW : 0 < rsum ws) by (apply weights_pos; assumption).
    assert (Lw : length rs = length ws) by (unfold ws; rewrite map_length; exact L).
    assert (B := wsum_bounds (hd 0 rs) (last rs 0) rs ws Lw (fun x Hx => sorted_ends rs St x Hx)).
    assert (B' : hd 0 rs * rsum ws <= wsum rs ws <= last rs 0 * rsum ws).
    { apply B. intros w Hw. apply in_map_iff in Hw as (y & <- & _). apply pow2_ge_0. }
    unfold xdiv at 1. destruct (Req_EM_T (rsum ws) 0); [lra|]. cbn [xbind]. set (c := wsum rs ws / rsum ws).
    assert (Hc : hd 0 rs <= c <= last rs 0).
    { unfold c. split; apply Rmult_le_reg_r with (rsum ws); try exact PW; unfold Rdiv; rewrite Rmult_assoc, Rinv_l, Rmult_1_r by lra; lra. }
    assert (M : 0 < rmin_list ys < rmax_list ys).
    { split; [apply P; exact Imin|]. specialize (Lmin _ Imax). lra. }
    assert (Yh : rmin_list ys <= hd 0 ys <= rmax_list ys) by (split; [apply Lmin|apply Lmax]; apply hd_in; exact Ny).
    assert (Yl : rmin_list ys <= last ys 0 <= rmax_list ys) by (split; [apply Lmin|apply Lmax]; apply last_in; exact Ny).
    destruct (sigma_side_ok c (hd 0 rs) (last rs 0) (hd 0 ys) _ _ M Yh) as (sl & -> & Sl & Sl1 & _).
    destruct (sigma_side_ok c (last rs 0) (hd 0 rs) (last ys 0) _ _ M Yl) as (sr & -> & Sr & Sr1 & _).
    cbn [xbind]. do 2 eexists. split; [reflexivity|]. split; [exact Hc|].
    assert (0 < sr + sl).
    { destruct (Req_dec (hd 0 rs) c) as [Ec|Ec]; [assert (0 < sr) by (apply Sr1; lra); lra|specialize (Sl1 Ec); lra]. }
    apply Rmult_lt_0_compat; lra.
Qed.

(** *** The width limit *)
Lemma limit_width_ok over_r W m c w : 0 < W -> 0 < w ->
  exists q, limit_width over_r W m (c, w) =
            Some (P3 c q (if over_r then c3 * m * c * Rmin w W else c3 * m * Rmin w W)) /\
    - (PI / 2) <= q <= PI / 2 /\ sin q + 1 = 2 * (Rmin w W) ^ 2 / W ^ 2 /\
    (w <= W -> q = asin (2 * w ^ 2 / W ^ 2 - 1)).
Proof.
  intros HW Hw. unfold limit_width. destruct (Rlt_dec W w) as [L|L].
  - rewrite Rmin_right by lra. exists (PI / 2). split; [reflexivity|]. split; [pose proof PI_RGT_0; lra|]. split; [|lra].
    rewrite sin_PI2. field. lra.
  - rewrite Rmin_left by lra. destruct (asin_arg W HW w ltac:(lra)) as [A1 A2].
    assert (0 < W ^ 2) by (apply pow_lt; exact HW).
    unfold xdiv. destruct (Req_EM_T (W ^ 2) 0); [lra|]. cbn [xbind]. unfold xasin.
    destruct (Rlt_dec (2 * w ^ 2 / W ^ 2 - 1) (-1)); [lra|]. destruct (Rlt_dec 1 (2 * w ^ 2 / W ^ 2 - 1)); [lra|]. cbn [xbind].
    eexists. split; [reflexivity|]. split; [apply asin_bound|]. split; [|reflexivity].
    rewrite sin_asin by lra. ring.
Qed.

Lemma c3_width W q v : 0 < W -> 0 < v -> sin q + 1 = 2 * v ^ 2 / W ^ 2 -> c1 W * sqrt (sin q + 1) = c3 * v.
Proof.
  intros HW Hv E. rewrite E. unfold c1, c3. pose proof ln2_pos as L. pose proof PI_RGT_0 as P.
  assert (Q : 0 < PI / ln 2) by (apply Rdiv_lt_0_compat; assumption).
  replace (2 * v ^ 2 / W ^ 2) with (2 * (v / W) ^ 2) by (field; lra).
  replace (PI / (8 * ln 2)) with (PI / ln 2 / 8) by (field; lra).
  assert (VW : 0 < v / W) by (apply Rdiv_lt_0_compat; assumption).
  rewrite sqrt_mult by (try lra; apply pow2_ge_0). rewrite sqrt_pow2 by lra.
  unfold Rdiv at 1. rewrite sqrt_mult by lra.
  assert (K : sqrt (/ 8) * sqrt 2 = 1 / 2).
  { rewrite <- sqrt_mult by lra. replace (/ 8 * 2) with ((1 / 2) ^ 2) by field. apply sqrt_pow2. lra. }
  transitivity (W * sqrt (PI / ln 2) * (sqrt (/ 8) * sqrt 2) * (v / W)); [unfold Rdiv; ring|]. rewrite K. field. lra.
Qed.

Lemma c3_pos : 0 < c3.
Proof. unfold c3. assert (0 < sqrt (PI / ln 2)). { apply sqrt_lt_R0. apply Rdiv_lt_0_compat; [apply PI_RGT_0|apply ln2_pos]. } lra. Qed.

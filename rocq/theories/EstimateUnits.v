(** Lemmas for C228: estimates in other units. *)
From Coq Require Import Reals Lra.
From Verif Require Import Prelude PeakFuncs Baselines Estimate.
Open Scope R_scope.

Lemma Rltb_scale (k u v : R) {A} (p q : A) : 0 < k -> (if Rlt_dec (k * u) (k * v) then p else q) = (if Rlt_dec u v then p else q).
Proof. intros K. destruct (Rlt_dec (k * u) (k * v)) as [L|L], (Rlt_dec u v) as [M|M]; try reflexivity; exfalso; [apply M; now apply Rmult_lt_reg_l with k|apply L; now apply Rmult_lt_compat_l]. Qed.
Lemma nth_scale k l i : nth i (map (Rmult k) l) 0 = k * nth i l 0.
Proof. rewrite <- (Rmult_0_r k) at 1. apply map_nth. Qed.
Lemma usable_scale k y : 0 < k -> usable_idx (map (Rmult k) y) = usable_idx y.
Proof.
  intros K. unfold usable_idx. rewrite map_length. apply filter_ext. intros i. rewrite nth_scale.
  rewrite <- (Rltb_scale k 0 (nth i y 0) true false K). now rewrite Rmult_0_r.
Qed.
Lemma usable_range y i : In i (usable_idx y) -> (i < length y)%nat.
Proof. intros I. apply filter_In in I. destruct I as [I _]. apply in_seq in I. lia. Qed.
Lemma take_scale k l idx : take_idx (map (Rmult k) l) idx = map (Rmult k) (take_idx l idx).
Proof. unfold take_idx. rewrite map_map. apply map_ext. intros i. apply nth_scale. Qed.
Lemma take_map h l idx : (forall i, In i idx -> (i < length l)%nat) -> take_idx (map h l) idx = map h (take_idx l idx).
Proof.
  intros H. unfold take_idx. rewrite map_map. apply map_ext_in. intros i I.
  rewrite nth_indep with (d' := h 0) by (rewrite map_length; now apply H). apply map_nth.
Qed.
Lemma hd_map (h : R -> R) l : l <> [] -> hd 0 (map h l) = h (hd 0 l).
Proof. now destruct l. Qed.
Lemma last_map (h : R -> R) l : l <> [] -> last (map h l) 0 = h (last l 0).
Proof. induction l as [|u [|v l] IH]; intros N; [easy|reflexivity|]. apply IH. discriminate. Qed.
Lemma Rmin_scale k u v : 0 < k -> Rmin (k * u) (k * v) = k * Rmin u v.
Proof. intros K. unfold Rmin. destruct (Rle_dec (k * u) (k * v)) as [L|L], (Rle_dec u v) as [M|M]; try reflexivity; exfalso; [apply M; now apply Rmult_le_reg_l with k|apply L; apply Rmult_le_compat_l; lra]. Qed.
Lemma Rmax_scale k u v : 0 < k -> Rmax (k * u) (k * v) = k * Rmax u v.
Proof. intros K. apply RmaxRmult. lra. Qed.
Lemma rmin_scale k l : 0 < k -> rmin_list (map (Rmult k) l) = k * rmin_list l.
Proof.
  intros K. unfold rmin_list. destruct l as [|z l]; [cbn; ring|]. 
  assert (G : forall l, fold_right Rmin (k * z) (map (Rmult k) l) = k * fold_right Rmin z l).
  { clear l. intros l. induction l as [|u l IH]; [reflexivity|]. cbn [map fold_right]. rewrite IH. now apply Rmin_scale. }
  apply (G (z :: l)).
Qed.
Lemma rmax_scale k l : 0 < k -> rmax_list (map (Rmult k) l) = k * rmax_list l.
Proof.
  intros K. unfold rmax_list. destruct l as [|z l]; [cbn; ring|].
  assert (G : forall l, fold_right Rmax (k * z) (map (Rmult k) l) = k * fold_right Rmax z l).
  { clear l. intros l. induction l as [|u l IH]; [reflexivity|]. cbn [map fold_right]. rewrite IH. now apply Rmax_scale. }
  apply (G (z :: l)).
Qed.
Lemma xdiv_scale k l u v : l <> 0 -> xdiv (k * u) (l * v) = match xdiv u v with Some w => Some (k / l * w) | None => None end.
Proof.
  intros L. unfold xdiv. destruct (Req_EM_T (l * v) 0) as [E|N], (Req_EM_T v 0) as [E'|N']; try reflexivity.
  - exfalso. apply Rmult_integral in E. tauto.
  - exfalso. apply N. rewrite E'. ring.
  - f_equal. field. split; assumption.
Qed.
Lemma xsqrt_scale a s : 0 < a -> xsqrt (a ^ 2 * s) = match xsqrt s with Some w => Some (a * w) | None => None end.
Proof.
  intros A. unfold xsqrt. assert (0 < a ^ 2) by (apply pow_lt; lra).
  destruct (Rlt_dec (a ^ 2 * s) 0) as [L|L], (Rlt_dec s 0) as [M|M]; try reflexivity.
  - exfalso. apply M. apply Rmult_lt_reg_l with (a ^ 2); lra.
  - exfalso. apply L. replace 0 with (a ^ 2 * 0) by ring. now apply Rmult_lt_compat_l.
  - f_equal. rewrite sqrt_mult by lra. rewrite sqrt_pow2 by lra. reflexivity.
Qed.
Lemma same_ratio k u v : 0 < k -> xdiv (k * u) (k * v) = xdiv u v.
Proof. intros K. rewrite xdiv_scale by lra. destruct (xdiv u v); [|reflexivity]. f_equal. field. lra. Qed.

Section Units.
Variables (k a b : R).
Hypothesis k_pos : 0 < k.
Hypothesis a_pos : 0 < a.
Lemma sigma_units c e e' ye mn mx :
  sigma_side (a * c + b) (a * e + b) (a * e' + b) (k * ye) (k * mn) (k * mx) =
  match sigma_side c e e' ye mn mx with Some s => Some (a * s) | None => None end.
Proof using k_pos a_pos.
  unfold sigma_side. rewrite Rltb_scale by exact k_pos. rewrite !same_ratio by exact k_pos.
  destruct (Rlt_dec ye mx).
  - destruct (xdiv ye mx) as [q|]; [|reflexivity]. cbn [xbind]. destruct (xln q) as [l|]; [|reflexivity]. cbn [xbind].
    replace (- (1 / 2) * (a * e + b - (a * c + b)) ^ 2) with (a ^ 2 * (- (1 / 2) * (e - c) ^ 2)) by ring.
    replace l with (1 * l) at 1 by ring. rewrite xdiv_scale by lra.
    destruct (xdiv _ l) as [s|]; [|reflexivity]. cbn [xbind]. replace (a ^ 2 / 1 * s) with (a ^ 2 * s) by field. now apply xsqrt_scale.
  - destruct (xdiv mn mx) as [q|]; [|reflexivity]. cbn [xbind]. destruct (xln q) as [l|]; [|reflexivity]. cbn [xbind].
    replace (a * e + b - (a * c + b)) with (a * (e - c)) by ring. replace (a * e' + b - (a * c + b)) with (a * (e' - c)) by ring.
    rewrite !Rabs_mult, (Rabs_right a) by lra.
    replace (- (1 / 2) * ((a * Rabs (e - c) + a * Rabs (e' - c)) / 2) ^ 2) with (a ^ 2 * (- (1 / 2) * ((Rabs (e - c) + Rabs (e' - c)) / 2) ^ 2)) by field.
    replace l with (1 * l) at 1 by ring. rewrite xdiv_scale by lra.
    destruct (xdiv _ l) as [s|]; [|reflexivity]. cbn [xbind]. replace (a ^ 2 / 1 * s) with (a ^ 2 * s) by field. now apply xsqrt_scale.
Qed.
Definition unit_r (t : R) : R := a * t + b.
Lemma weights_sum w : rsum (map (Rmult (k ^ 2)) w) = k ^ 2 * rsum w.
Proof. induction w as [|u w IH]; cbn [map rsum fold_right]; [ring|]. fold (rsum (map (Rmult (k ^ 2)) w)) (rsum w). rewrite IH. ring. Qed.
Lemma moments r : forall w, length w = length r ->
  rsum (map (fun rw => fst rw * snd rw) (combine (map unit_r r) (map (Rmult (k ^ 2)) w))) =
  k ^ 2 * (a * rsum (map (fun rw => fst rw * snd rw) (combine r w)) + b * rsum w).
Proof.
  induction r as [|u r IH]; intros [|v w] L; try discriminate; [cbn; ring|]. injection L as L.
  cbn [map combine rsum fold_right fst snd]. fold (rsum (map (fun rw : R * R => fst rw * snd rw) (combine (map unit_r r) (map (Rmult (k ^ 2)) w)))).
  fold (rsum (map (fun rw : R * R => fst rw * snd rw) (combine r w))) (rsum w). rewrite (IH w L). unfold unit_r. ring.
Qed.
Lemma centre_units X Y : k ^ 2 <> 0 -> xdiv (k ^ 2 * (a * X + b * Y)) (k ^ 2 * Y) = match xdiv X Y with Some c => Some (a * c + b) | None => None end.
Proof.
  intros K2. rewrite xdiv_scale by exact K2. unfold xdiv. destruct (Req_EM_T Y 0) as [Z|NZ]; [reflexivity|]. f_equal. field. split; [exact NZ|].
  intros E. apply K2. rewrite E. ring.
Qed.
Lemma position_units r y : length r = length y -> r <> [] ->
  position_width (map unit_r r) (map (Rmult k) y) =
  match position_width r y with Some (c, w) => Some (a * c + b, a * w) | None => None end.
Proof using k_pos a_pos.
  intros L N. unfold position_width. rewrite rmin_scale, rmax_scale by exact k_pos.
  assert (NY : y <> []) by (intros E; subst; destruct r; [now apply N|discriminate]).
  rewrite !hd_map, !last_map by assumption. 
  destruct (Req_EM_T (k * rmin_list y) (k * rmax_list y)) as [E|D], (Req_EM_T (rmin_list y) (rmax_list y)) as [E'|D'].
  - unfold unit_r. replace ((a * last r 0 + b - (a * hd 0 r + b)) * 2) with (a * ((last r 0 - hd 0 r) * 2)) by ring.
    replace (2 * ln 2) with (1 * (2 * ln 2)) at 1 by ring. rewrite xdiv_scale by lra.
    destruct (xdiv ((last r 0 - hd 0 r) * 2) (2 * ln 2)) as [w|]; [|reflexivity]. cbn [xbind]. f_equal. f_equal; field.
  - exfalso. apply D'. now apply Rmult_eq_reg_l with k; [|lra].
  - exfalso. apply D. now rewrite E'.
  - assert (WE : map (fun y0 => (y0 - k * rmin_list y) ^ 2) (map (Rmult k) y) = map (Rmult (k ^ 2)) (map (fun y0 => (y0 - rmin_list y) ^ 2) y)).
    { rewrite !map_map. apply map_ext. intros u. ring. }
    rewrite WE. clear WE. set (w := map (fun y0 => (y0 - rmin_list y) ^ 2) y).
    assert (LW : length w = length r) by (unfold w; now rewrite map_length).
    rewrite weights_sum, moments by exact LW.
    assert (K2 : k ^ 2 <> 0) by (apply Rgt_not_eq; apply pow_lt; exact k_pos).
    rewrite centre_units by exact K2.
    destruct (xdiv (rsum (map (fun rw : R * R => fst rw * snd rw) (combine r w))) (rsum w)) as [c|]; [|reflexivity]. cbn [xbind].
    unfold unit_r. rewrite !sigma_units.
    destruct (sigma_side c (hd 0 r) _ _ _ _) as [sl|]; [|reflexivity]. cbn [xbind].
    destruct (sigma_side c (last r 0) _ _ _ _) as [sr|]; [|reflexivity]. cbn [xbind]. f_equal. f_equal. ring.
Qed.
Lemma limit_units over_r W mx c w : (over_r = true -> b = 0) ->
  limit_width over_r (a * W) (k * mx) (a * c + b, a * w) =
  match limit_width over_r W mx (c, w) with
  | Some p => Some (P3 (a * p_pos p + b) (p_wid p) (k * (if over_r then a ^ 2 else a) * p_area p))
  | None => None
  end.
Proof using k_pos a_pos.
  intros B. unfold limit_width. rewrite Rltb_scale by exact a_pos.
  destruct (Rlt_dec W w).
  - f_equal. destruct over_r; cbn; f_equal; [rewrite (B eq_refl); ring|ring].
  - replace (2 * (a * w) ^ 2) with (a ^ 2 * (2 * w ^ 2)) by ring. replace ((a * W) ^ 2) with (a ^ 2 * W ^ 2) by ring.
    rewrite same_ratio by (apply pow_lt; exact a_pos).
    destruct (xdiv (2 * w ^ 2) (W ^ 2)) as [s|]; [|reflexivity]. cbn [xbind]. destruct (xasin (s - 1)) as [q|]; [|reflexivity]. cbn [xbind].
    f_equal. destruct over_r; cbn; f_equal; [rewrite (B eq_refl); ring|ring].
Qed.
End Units.

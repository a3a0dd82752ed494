(** Properties C175-C178: what makeplot draws and where. *)
From Coq Require Import Reals Lra Psatz.
From Verif Require Import Prelude Resample ResampleProps Ripples RipplesProofs Plot MakePlot.
From Verif Require PlotProps.
Open Scope R_scope.

(** ** C175: grids *)
Lemma pyget0 (r : list R) v : pyget r 0 = Ok v -> r <> [] /\ hd 0 r = v.
Proof. destruct r as [|a r]; [discriminate|]. intros E. cbn in E. injection E as <-. split; [discriminate|reflexivity]. Qed.
Lemma last_nth (r : list R) : last r 0 = nth (length r - 1) r 0.
Proof.
  induction r as [|a r IH]; [reflexivity|]. destruct r as [|b r]; [reflexivity|]. change (last (a :: b :: r) 0) with (last (b :: r) 0). rewrite IH.
  cbn [length]. replace (S (S (length r)) - 1)%nat with (S (S (length r) - 1)) by lia. reflexivity.
Qed.
Lemma pyget_m1 (r : list R) v : pyget r (-1) = Ok v -> last r 0 = v.
Proof.
  intros E. rewrite last_nth. unfold pyget in E. change (-1 <? 0)%Z with true in E. cbv iota in E.
  destruct (_ || _) eqn:B; [discriminate|]. apply orb_false_iff in B as (B1 & B2). apply Z.ltb_ge in B1.
  destruct (nth_error r _) as [x|] eqn:N; [|discriminate]. injection E as ->. replace (length r - 1)%nat with (Z.to_nat (-1 + Z.of_nat (length r))) by lia. now apply nth_error_nth.
Qed.

(** A grid of [n] points in steps of [d] *)
Definition steps (a d : R) (n : nat) : list R := map (fun i => a + INR i * d) (seq 0 n).
Lemma arange_steps a b d : arange a b d = steps a d (length (arange a b d)).
Proof. rewrite arange_length. reflexivity. Qed.

(** The observed curve is drawn at the points of the model's grid, at points before it in
    steps of (r[-1]-r[0])/len(r) as long as they are greater than xlo, and at points after it in
    the same steps until xhi is reached. *)
Theorem C175_observed_grid :
  forall r xlo xhi, let d := (last r 0 - hd 0 r) / INR (length r) in hd 0 r < last r 0 ->
    exists nl nr, rexpand r xlo xhi = rev (steps (hd 0 r - d) (- d) nl) ++ r ++ steps (last r 0 + d) d nr /\
      (forall i, (i < nl)%nat <-> xlo < hd 0 r - d - INR i * d) /\ (forall i, (i < nr)%nat <-> last r 0 + INR i * d < xhi) /\
      (xlo = hd 0 r -> xhi = last r 0 -> rexpand r xlo xhi = r).
Proof.
  intros r xlo xhi d LT. assert (L0 : 0 < INR (length r)) by (apply lt_0_INR; destruct r; cbn in *; [lra|lia]).
  assert (D : 0 < d) by (apply Rdiv_lt_0_compat; lra).
  set (NL := length (arange (hd 0 r - d) xlo (- d))). set (NR := length (arange (last r 0 + d) (xhi + d) d)). exists NL, NR.
  assert (E : rexpand r xlo xhi = rev (steps (hd 0 r - d) (- d) NL) ++ r ++ steps (last r 0 + d) d NR) by (unfold NL, NR; rewrite <- !arange_steps; reflexivity).
  split; [exact E|]. assert (A : forall i, (i < NL)%nat <-> xlo < hd 0 r - d - INR i * d) by (intros i; apply arange_down; exact D).
  assert (B : forall i, (i < NR)%nat <-> last r 0 + INR i * d < xhi) by (intros i; unfold NR; rewrite arange_up by exact D; split; lra).
  split; [exact A|]. split; [exact B|]. intros EL EH. clearbody NL NR. rewrite E.
  assert (Z1 : NL = 0%nat). { destruct NL as [|n]; [reflexivity|]. exfalso. assert (H : (0 < S n)%nat) by lia. apply A in H. cbn [INR] in H. lra. }
  assert (Z2 : NR = 0%nat). { destruct NR as [|n]; [reflexivity|]. exfalso. assert (H : (0 < S n)%nat) by lia. apply B in H. cbn [INR] in H. lra. }
  rewrite Z1, Z2. cbn [steps seq map rev app]. apply app_nil_r.
Qed.
(** The fit and the peaks are drawn at ten points for each point of the grid, in equal steps from
    the first point; the last point is not reached. *)
Theorem C175_fit_grid :
  forall r, hd 0 r < last r 0 -> rfine r = steps (hd 0 r) ((last r 0 - hd 0 r) / INR (10 * length r)) (10 * length r) /\ (forall x, In x (rfine r) -> hd 0 r <= x < last r 0).
Proof.
  intros r LT. assert (L0 : 0 < INR (length r)) by (apply lt_0_INR; destruct r; cbn in *; [lra|lia]).
  assert (T : INR (10 * length r) = 10 * INR (length r)) by (rewrite mult_INR; cbn [INR]; lra).
  assert (E : / 10 * plot_dr r = (last r 0 - hd 0 r) / INR (10 * length r)) by (unfold plot_dr; rewrite T; field; lra).
  set (d := (last r 0 - hd 0 r) / INR (10 * length r)) in *.
  assert (D : 0 < d) by (apply Rdiv_lt_0_compat; lra).
  assert (F : last r 0 = hd 0 r + INR (10 * length r) * d) by (unfold d; field; lra).
  assert (LE : length (rfine r) = (10 * length r)%nat).
  { unfold rfine. rewrite E. set (N := length (arange (hd 0 r) (last r 0) d)). assert (UP : forall i, (i < N)%nat <-> hd 0 r + INR i * d < last r 0) by (intros i; apply arange_up; exact D). clearbody N. apply Nat.le_antisymm.
    - destruct (Nat.le_gt_cases N (10 * length r)) as [|H]; [assumption|]. exfalso. apply UP in H. lra.
    - destruct (Nat.le_gt_cases (10 * length r) N) as [|H]; [assumption|]. exfalso.
      apply (Nat.lt_irrefl N). apply UP. rewrite F. apply lt_INR in H. apply (Rmult_lt_compat_r d) in H; [lra|exact D]. }
  assert (S : rfine r = steps (hd 0 r) d (10 * length r)) by (rewrite <- LE; unfold rfine; rewrite E; apply arange_steps).
  split; [exact S|]. intros x Hx. rewrite S in Hx. unfold steps in Hx. apply in_map_iff in Hx as (i & <- & Hi). apply in_seq in Hi. pose proof (pos_INR i).
  assert (H1 : INR i < INR (10 * length r)) by (apply lt_INR; lia). apply (Rmult_lt_compat_r d) in H1; [|exact D]. split; [|lra]. assert (0 <= INR i * d) by (apply Rmult_le_pos; lra). lra.
Qed.

(** ** Minima and maxima *)
Lemma lmin_spec l m : lmin l = Ok m -> In m l /\ forall x, In x l -> m <= x.
Proof.
  destruct l as [|a l]; [discriminate|]. intros E. injection E as <-. revert a. induction l as [|b l IH]; intros a.
  - cbn. split; [now left|]. intros x [->|[]]. lra.
  - cbn [fold_left]. destruct (IH (Rmin a b)) as (I & H). split.
    + destruct I as [I|I]; [|right; now right]. rewrite <- I. unfold Rmin. destruct (Rle_dec a b); [now left|right; now left].
    + pose proof (H (Rmin a b) (or_introl eq_refl)) as H0. pose proof (Rmin_l a b). pose proof (Rmin_r a b). intros x [<-|[<-|Hx]]; [lra|lra|]. apply H. now right.
Qed.
Lemma lmax_spec l m : lmax l = Ok m -> In m l /\ forall x, In x l -> x <= m.
Proof.
  destruct l as [|a l]; [discriminate|]. intros E. injection E as <-. revert a. induction l as [|b l IH]; intros a.
  - cbn. split; [now left|]. intros x [->|[]]. lra.
  - cbn [fold_left]. destruct (IH (Rmax a b)) as (I & H). split.
    + destruct I as [I|I]; [|right; now right]. rewrite <- I. unfold Rmax. destruct (Rle_dec a b); [right; now left|now left].
    + pose proof (H (Rmax a b) (or_introl eq_refl)) as H0. pose proof (Rmax_l a b). pose proof (Rmax_r a b). intros x [<-|[<-|Hx]]; [lra|lra|]. apply H. now right.
Qed.
Lemma collect_all_spec {A} (l : list (result A)) : forall vs, collect_all l = Ok vs -> l = map Ok vs.
Proof.
  induction l as [|x l IH]; intros vs E; [injection E as <-; reflexivity|]. cbn in E. destruct x as [v|e]; [|discriminate]. cbn [bind] in E.
  destruct (collect_all l) as [ws|e]; [|discriminate]. cbn [bind] in E. injection E as <-. cbn. f_equal. now apply IH.
Qed.
Lemma all_min (all : list (list R)) ms m : collect_all (map lmin all) = Ok ms -> lmin ms = Ok m -> forall l x, In l all -> In x l -> m <= x.
Proof.
  intros C M l x Hl Hx. apply collect_all_spec in C. apply lmin_spec in M as (_ & M).
  assert (I : In (lmin l) (map Ok ms)) by (rewrite <- C; now apply in_map). apply in_map_iff in I as (v & E & Iv). symmetry in E. apply lmin_spec in E as (_ & E). specialize (M v Iv). specialize (E x Hx). lra.
Qed.
Lemma all_max (all : list (list R)) ms m : collect_all (map lmax all) = Ok ms -> lmax ms = Ok m -> forall l x, In l all -> In x l -> x <= m.
Proof.
  intros C M l x Hl Hx. apply collect_all_spec in C. apply lmax_spec in M as (_ & M).
  assert (I : In (lmax l) (map Ok ms)) by (rewrite <- C; now apply in_map). apply in_map_iff in I as (v & E & Iv). symmetry in E. apply lmax_spec in E as (_ & E). specialize (M v Iv). specialize (E x Hx). lra.
Qed.
Lemma in_unmasked l x : In (Some x) l -> In x (unmasked l).
Proof. induction l as [|[a|] l IH]; cbn; [tauto| |]; intros [H|H]; [injection H as ->; now left|right; now apply IH|discriminate|now apply IH]. Qed.

(** ** C176: layout *)
(** The curves in the main area: what is observed, the fit, and if individual peaks are shown
    the filled ones. *)
Definition data_value (k : kwargs) (f : figure) (v : R) : Prop :=
  (exists xs ys, f_observed f = Some (xs, ys) /\ In v ys) \/ (exists xs ys, f_fit f = Some (xs, ys) /\ In v ys) \/
  (k_individual k = true /\ exists xs lo hi, In (xs, lo, hi) (f_filled f) /\ (In v lo \/ In v hi)).
Definition residual_value (f : figure) (w : R) : Prop := exists xs ys, f_residual f = Some (xs, ys) /\ In (Some w) ys.

(** With limits left to makeplot: counted in percent of the height of the picture, the data end
    below the room for the insets by datatop_offset, the residual ends below the data by
    databottom_offset, and stays above the lower limit by bottom_offset. *)
Theorem C176_layout :
  forall s stability ip k f,
    makeplot s stability ip k = Ok f ->
    k_min k = None -> k_max k = None -> k_yhi k = None -> k_ylo k = None -> k_resbase k = None -> get (k_scale k) 1 <> 0 ->
    let ylo := fst (f_ylim f) in let yhi := snd (f_ylim f) in
    let percent p := p / 100 * (yhi - ylo) in
    let top := get (k_top k) 0 in
    let dg := get (k_dg k) (match stability with Some _ => 15 | None => 0 end) in
    let cmp := get (k_cmp k) (match ip with Some _ => 15 | None => 15 / 2 end) in
    0 < 100 - top - dg - cmp - get (k_datatop k) 3 - get (k_databottom k) 3 - get (k_bottom k) 3 ->
    f_datatop f = yhi - percent (top + dg + cmp) /\ ylo <= yhi /\
    (forall v, data_value k f v -> v <= f_datatop f - percent (get (k_datatop k) 3)) /\
    (forall v w, data_value k f v -> residual_value f w -> w <= v - percent (get (k_databottom k) 3)) /\
    (forall w, residual_value f w -> ylo + percent (get (k_bottom k) 3) <= w).
Proof.
  intros s stability ip k f E Kmin Kmax Kyh Kyl Kr SC ylo yhi percent top dg cmp REL.
  unfold makeplot in E. destruct (pyget (s_r s) 0) as [r0|] eqn:E0; [|discriminate]. cbn [bind] in E. destruct (pyget (s_r s) (-1)) as [rn|] eqn:En; [|discriminate]. cbn [bind] in E.
  destruct (Req_EM_T (plot_dr (s_r s)) 0) as [|_]; [discriminate|].
  destruct (resample _ _ _) as [obs0|] eqn:RS; [|discriminate]. cbn [bind] in E. fold top dg cmp in E.
  set (scale := get (k_scale k) 1) in *. set (obs := times scale obs0) in *. set (fine := rfine (s_r s)) in *. set (fitv := times scale (s_value s fine)) in *. set (bl := times scale (s_bl s fine)) in *.
  set (ind := map (fun p => plus_lists bl (times scale (p fine))) (s_peaks s)) in *. set (res := mask (k_mask k) (times scale (s_residual s))) in *.
  set (all := (if k_fit k then [fitv] else []) ++ (if k_individual k then bl :: ind else []) ++ (if k_observed k then [obs] else [])) in *.
  destruct (collect_all (map lmin all)) as [mins|] eqn:C1; [|discriminate]. cbn [bind] in E. destruct (lmin mins) as [mn|] eqn:M1; [|discriminate]. cbn [bind] in E.
  destruct (collect_all (map lmax all)) as [maxs|] eqn:C2; [|discriminate]. cbn [bind] in E. destruct (lmax maxs) as [mx|] eqn:M2; [|discriminate]. cbn [bind] in E.
  destruct (if k_residual k then lmin (unmasked res) else Ok 0) as [mnr|] eqn:R1; [|discriminate]. cbn [bind] in E.
  destruct (if k_residual k then lmax (unmasked res) else Ok 0) as [mxr|] eqn:R2; [|discriminate]. cbn [bind] in E.
  rewrite Kmin, Kmax, Kyh, Kyl, Kr in E. cbn [get] in E.
  replace (mn / scale * scale) with mn in E by (field; exact SC). replace (mx / scale * scale) with mx in E by (field; exact SC).
  set (rel := 100 - top - dg - cmp - get (k_datatop k) 3 - get (k_databottom k) 3 - get (k_bottom k) 3) in *.
  set (h := 100 * ((mx - mn) + (mxr - mnr)) / rel) in *.
  destruct (if Rlt_dec 0 dg then _ else _) as [dgp|]; [|discriminate]. cbn [bind] in E.
  assert (Hh : h * rel = 100 * ((mx - mn) + (mxr - mnr))) by (unfold h; field; lra). clearbody h.
  assert (MM : mn <= mx). { apply lmin_spec in M1 as (I1 & M1'). apply lmax_spec in M2 as (I2 & M2'). apply collect_all_spec in C1. apply collect_all_spec in C2.
    destruct all as [|l0 all0]; [destruct mins; [destruct I1|discriminate]|]. destruct mins as [|a mins]; [discriminate|]. destruct maxs as [|b maxs]; [discriminate|]. cbn in C1, C2. injection C1 as C1 _. injection C2 as C2 _.
    apply lmin_spec in C1 as (Ia & _). apply lmax_spec in C2 as (_ & C2). pose proof (M1' a (or_introl eq_refl)). pose proof (M2' b (or_introl eq_refl)). specialize (C2 a Ia). lra. }
  assert (MR : mnr <= mxr). { destruct (k_residual k); [|injection R1 as <-; injection R2 as <-; lra]. apply lmin_spec in R1 as (I1 & _). apply lmax_spec in R2 as (_ & R2). now apply R2. }
  assert (H0 : 0 <= h). { destruct (Rle_lt_dec 0 h) as [|N]; [assumption|]. exfalso. assert (h * rel < 0 * rel) by (apply Rmult_lt_compat_r; lra). lra. }
  assert (DV : forall v, data_value k f v -> mn <= v <= mx).
  { intros v Hv. assert (IN : exists l, In l all /\ In v l).
    { injection E as <-. destruct Hv as [(xs & ys & H & Iv)|[(xs & ys & H & Iv)|(KI & xs & lo & hi & H & Iv)]]; cbn [f_observed f_fit f_filled] in H.
      - destruct (k_observed k) eqn:KO; [|discriminate]. injection H as _ <-. exists obs. split; [|exact Iv]. unfold all. rewrite !in_app_iff. right. right. now left.
      - destruct (k_fit k) eqn:KF; [|discriminate]. injection H as _ <-. exists fitv. split; [|exact Iv]. unfold all. rewrite !in_app_iff. left. now left.
      - destruct (k_fill k); [|destruct H]. apply in_map_iff in H as (p & H & Ip). injection H as _ <- <-. destruct Iv as [Iv|Iv]; [exists bl|exists p]; (split; [|exact Iv]); unfold all; rewrite KI, !in_app_iff; right; left; [now left|now right]. }
    destruct IN as (l & Hl & Hv'). split; [exact (all_min all mins mn C1 M1 l v Hl Hv')|exact (all_max all maxs mx C2 M2 l v Hl Hv')]. }
  assert (RV : forall w, residual_value f w -> exists x, w = f_resbase f + x /\ mnr <= x <= mxr).
  { intros w (xs & ys & H & Iw). injection E as <-. cbn [f_residual f_resbase] in *. destruct (k_residual k); [|discriminate]. injection H as _ <-. apply in_map_iff in Iw as ([x|] & Ex & Ix); [|discriminate]. cbn in Ex. injection Ex as <-. exists x. split; [reflexivity|].
    apply in_unmasked in Ix. apply lmin_spec in R1 as (_ & R1). apply lmax_spec in R2 as (_ & R2). auto. }
  assert (Y1 : yhi = mx + (top + dg + cmp + get (k_datatop k) 3) * h / 100) by (unfold yhi; injection E as <-; reflexivity).
  assert (Y2 : ylo = yhi - h) by (unfold yhi, ylo; injection E as <-; reflexivity).
  assert (Y3 : f_datatop f = yhi - (yhi - ylo) * (1 / 100) * (top + dg + cmp)) by (unfold yhi, ylo; injection E as <-; reflexivity).
  assert (Y4 : f_resbase f = ylo + get (k_bottom k) 3 * h / 100 - mnr) by (unfold ylo; injection E as <-; reflexivity).
  clearbody yhi ylo. clear E. subst ylo. unfold percent. replace (yhi - (yhi - h)) with h in * by ring. subst yhi. unfold rel in Hh.
  split; [rewrite Y3; field|]. split; [lra|]. split; [|split].
  - intros v Hv. apply DV in Hv. rewrite Y3. lra.
  - intros v w Hv Hw. apply DV in Hv. apply RV in Hw as (x & -> & Hx). rewrite Y4. lra.
  - intros w Hw. apply RV in Hw as (x & -> & Hx). rewrite Y4. lra.
Qed.

(** The observed curve passes through the (scaled) data at every data point where it is drawn. *)
Theorem C175_observed_curve :
  forall s stability ip k f a h xs ys,
    makeplot s stability ip k = Ok f -> uniform a h (s_x s) -> length (s_y s) = length (s_x s) -> f_observed f = Some (xs, ys) ->
    length ys = length xs /\ (forall i t, nth_error (s_r s) i = Some t -> In t xs) /\
    (forall i j t y, nth_error (s_x s) i = Some t -> nth_error (s_y s) i = Some y -> nth_error xs j = Some t -> nth_error ys j = Some (get (k_scale k) 1 * y)).
Proof.
  intros s stability ip k f a h xs ys E U L O. unfold makeplot in E. destruct (pyget (s_r s) 0) as [r0|] eqn:E0; [|discriminate]. cbn [bind] in E. destruct (pyget (s_r s) (-1)) as [rn|] eqn:En; [|discriminate]. cbn [bind] in E.
  destruct (Req_EM_T (plot_dr (s_r s)) 0) as [|_]; [discriminate|]. set (g := rexpand _ _ _) in E.
  assert (IN : forall t, In t (s_r s) -> In t g) by (intros t Ht; unfold g, rexpand; apply in_or_app; right; apply in_or_app; now left).
  assert (NE : g <> []). { apply pyget0 in E0 as (NE & _). destruct (s_r s) as [|t r]; [contradiction|]. intros C. specialize (IN t (or_introl eq_refl)). now rewrite C in IN. }
  destruct (C51_original_points a h (s_x s) (s_y s) g U L NE) as (out & RO & LO & PT). rewrite RO in E. cbn [bind] in E.
  repeat match type of E with bind ?x _ = Ok _ => destruct x; [cbn [bind] in E|discriminate] end.
  injection E as <-. cbn [f_observed] in O. destruct (k_observed k); [|discriminate]. injection O as <- <-.
  split; [unfold times; now rewrite map_length|]. split; [intros i t Ht; apply IN; exact (nth_error_In _ _ Ht)|].
  intros i j t y H1 H2 H3. unfold times. rewrite nth_error_map, (PT i j t y H1 H2 H3). reflexivity.
Qed.

(** The other curves: the fit, the peaks from the baseline up, and the residual above its base
    line with the points outside the mask left out; each is drawn if it is asked for. *)
Theorem C175_other_curves :
  forall s stability ip k f,
    makeplot s stability ip k = Ok f ->
    let scale := get (k_scale k) 1 in let fine := rfine (s_r s) in
    f_fit f = (if k_fit k then Some (fine, map (fun y => scale * y) (s_value s fine)) else None) /\
    (k_fill k = false -> f_filled f = []) /\
    (k_fill k = true -> length (f_filled f) = length (s_peaks s) /\
      forall i p, nth_error (s_peaks s) i = Some p -> exists ys,
        nth_error (f_filled f) i = Some (fine, map (fun y => scale * y) (s_bl s fine), ys) /\
        forall j b y, nth_error (s_bl s fine) j = Some b -> nth_error (p fine) j = Some y -> nth_error ys j = Some (scale * b + scale * y)) /\
    (k_residual k = false -> f_residual f = None) /\
    (k_residual k = true -> exists ys, f_residual f = Some (s_r s, ys) /\ length ys = length (s_residual s) /\
      forall j v, nth_error (s_residual s) j = Some v ->
        ((forall m, k_mask k = Some m -> m <> 0 -> Rabs (scale * v) <= Rabs m) -> nth_error ys j = Some (Some (f_resbase f + scale * v))) /\
        (forall m, k_mask k = Some m -> m <> 0 -> Rabs m < Rabs (scale * v) -> nth_error ys j = Some None)).
Proof.
  assert (PL : forall a b j x y, nth_error a j = Some x -> nth_error b j = Some y -> nth_error (plus_lists a b) j = Some (x + y)).
  { induction a as [|a0 a IH]; intros b j x y H1 H2; [destruct j; discriminate|]. destruct b as [|b0 b]; [destruct j; discriminate|]. destruct j as [|j]; [cbn in *; congruence|]. cbn in *. now apply IH. }
  intros s stability ip k f E scale fine. unfold makeplot in E. destruct (pyget (s_r s) 0) as [r0|]; [|discriminate]. cbn [bind] in E. destruct (pyget (s_r s) (-1)) as [rn|]; [|discriminate]. cbn [bind] in E.
  destruct (Req_EM_T (plot_dr (s_r s)) 0) as [|_]; [discriminate|].
  repeat match type of E with bind ?x _ = Ok _ => destruct x; [cbn [bind] in E|discriminate] end.
  injection E as <-. cbn [f_fit f_filled f_residual f_resbase]. fold scale. fold fine. split; [reflexivity|].
  split; [intros ->; reflexivity|]. split; [|split; [intros ->; reflexivity|]].
  - intros ->. split; [now rewrite !map_length|]. intros i p HP. rewrite !nth_error_map, HP. cbn [option_map]. eexists. split; [reflexivity|]. intros j b y HB HY. apply PL; unfold times; [now rewrite nth_error_map, HB|now rewrite nth_error_map, HY].
  - intros ->. eexists. split; [reflexivity|]. split.
    + rewrite map_length. unfold mask, times. destruct (k_mask k) as [m|]; [destruct (Req_EM_T m 0)|]; now rewrite !map_length.
    + intros j v HV. rewrite nth_error_map. unfold mask, times. split.
      * intros H. destruct (k_mask k) as [m|]; [destruct (Req_EM_T m 0) as [|N]|]; rewrite !nth_error_map, HV; cbn [option_map]; try reflexivity.
        specialize (H m eq_refl N). destruct (Rle_dec (Rabs (scale * v)) (Rabs m)); [reflexivity|contradiction].
      * intros m -> N H. destruct (Req_EM_T m 0); [contradiction|]. rewrite !nth_error_map, HV. cbn [option_map]. destruct (Rle_dec (Rabs (scale * v)) (Rabs m)); [lra|reflexivity].
Qed.
(** The panels above the data.  All found positions are compared, as lines up from 0 to 1, with all
    given ones, as lines down from 0 to -1; of a stability analysis the positions within the range
    of the extraction are shown. *)
Theorem C175_panels :
  forall s stability ip k f a b d0 dn,
    makeplot s stability ip k = Ok f -> nth_error (s_r s) 0 = Some a -> nth_error (s_r s) (length (s_r s) - 1) = Some b -> 0 < get (k_scale k) 1 ->
    (get (k_cmp k) (match ip with Some _ => 15 | None => 15 / 2 end) <= 0 -> f_cmp f = None) /\
    (0 < get (k_cmp k) (match ip with Some _ => 15 | None => 15 / 2 end) -> exists c, f_cmp f = Some c /\
       PlotProps.drawn_as_stems 0 1 (s_positions s) (c_found c) /\
       match ip with Some ps => exists pts, c_ideal c = Some pts /\ PlotProps.drawn_as_stems 0 (-1) ps pts | None => c_ideal c = None end) /\
    (get (k_dg k) (match stability with Some _ => 15 | None => 0 end) <= 0 -> f_dg f = None) /\
    (0 < get (k_dg k) (match stability with Some _ => 15 | None => 0 end) -> exists res pts, stability = Some res /\ f_dg f = Some pts /\
       (nth_error (map fst res) 0 = Some d0 -> nth_error (map fst res) (length res - 1) = Some dn ->
        forall x y, In (x, y) pts <-> exists dg peaks, In (dg, peaks) res /\ In x peaks /\ y = dg * get (k_scale k) 1 /\
          get (k_dgmin k) d0 <= dg <= get (k_dgmax k) dn /\ a <= x <= b)).
Proof.
  intros s stability ip k f a b d0 dn E HA HB HS. unfold makeplot in E.
  assert (PA : pyget (s_r s) 0 = Ok a) by (change 0%Z with (Z.of_nat 0); exact (ResampleProps.pyget_ok _ _ _ HA)).
  assert (PB : pyget (s_r s) (-1) = Ok b) by (exact (ResampleProps.pyget_last _ _ HB)).
  rewrite PA in E. cbn [bind] in E. rewrite PB in E. cbn [bind] in E.
  destruct (Req_EM_T (plot_dr (s_r s)) 0) as [|_]; [discriminate|].
  do 7 (match type of E with bind ?x _ = Ok _ => destruct x; [cbn [bind] in E|discriminate] end).
  match type of E with bind ?x _ = Ok _ => destruct x as [dgp|] eqn:DG; [cbn [bind] in E|discriminate] end.
  injection E as <-. cbn [f_cmp f_dg].
  set (ch := get (k_cmp k) _) in *. set (dh := get (k_dg k) _) in *.
  split; [|split; [|split]].
  - intros H. destruct (Rlt_dec 0 ch); [lra|reflexivity].
  - intros H. destruct (Rlt_dec 0 ch); [|lra]. eexists. split; [reflexivity|].
    destruct (PlotProps.C167_comparepositions (s_positions s) ip 0 (-1) 1 None None) as (found & ST & _ & _ & ALL & ID).
    rewrite ALL in ST by (intros; split; intros; discriminate). split; [exact ST|].
    destruct ip as [ps|]; [|exact (proj1 ID)]. destruct ID as (pts & I1 & I2 & _). eauto.
  - intros H. destruct (Rlt_dec 0 dh); [lra|]. congruence.
  - intros H. destruct (Rlt_dec 0 dh); [|lra]. destruct stability as [res|]; [|discriminate].
    destruct (dgseries res (get (k_scale k) 1) (k_dgmin k) (k_dgmax k) a (Some b)) as [pts|] eqn:D; [|discriminate]. cbn [bind] in DG. injection DG as <-.
    exists res, pts. split; [reflexivity|]. split; [reflexivity|]. intros H0 Hn.
    destruct (PlotProps.C168_dgseries res (get (k_scale k) 1) (k_dgmin k) (k_dgmax k) a (Some b) d0 dn HS H0 Hn) as (pts' & D' & SPEC).
    assert (pts' = pts) as -> by congruence. intros x y. rewrite SPEC. unfold PlotProps.between, get.
    split; intros (dg & peaks & I & P & -> & G & W); exists dg, peaks; (split; [exact I|]); (split; [exact P|]); (split; [reflexivity|]); (split; [exact G|]).
    + destruct W as [W1 W2]. split; auto.
    + split; intros ? [= <-]; apply W.
Qed.
Print Assumptions C175_panels.
(** makeplot succeeds whenever there is something to show and, for the inset of a stability
    analysis, there are results. *)
Lemma collect_total (g : list R -> result R) all : (forall l, In l all -> l <> []) -> (forall l, l <> [] -> exists m, g l = Ok m) -> exists ms, collect_all (map g all) = Ok ms /\ (all <> [] -> ms <> []).
Proof.
  intros NE G. induction all as [|l all IH]; [exists []; split; [reflexivity|auto]|]. destruct IH as (ms & E & _); [intros; apply NE; now right|]. destruct (G l (NE l (or_introl eq_refl))) as (m & M).
  exists (m :: ms). cbn. rewrite M. cbn [bind]. rewrite E. split; [reflexivity|discriminate].
Qed.
Lemma lmin_total l : l <> [] -> exists m, lmin l = Ok m. Proof. destruct l; [contradiction|]. eexists. reflexivity. Qed.
Lemma lmax_total l : l <> [] -> exists m, lmax l = Ok m. Proof. destruct l; [contradiction|]. eexists. reflexivity. Qed.
Lemma plus_lists_ne a b : a <> [] -> b <> [] -> plus_lists a b <> []. Proof. destruct a, b; try contradiction; discriminate. Qed.
Theorem C176_succeeds :
  forall s stability ip k a h,
    uniform a h (s_x s) -> length (s_y s) = length (s_x s) -> hd 0 (s_r s) < last (s_r s) 0 ->
    (forall g, length (s_value s g) = length g) -> (forall g, length (s_bl s g) = length g) -> (forall p g, In p (s_peaks s) -> length (p g) = length g) ->
    s_residual s <> [] -> k_mask k = None ->
    k_fit k = true \/ k_individual k = true \/ k_observed k = true ->
    match stability with None => get (k_dg k) 0 <= 0 | Some l => l <> [] end ->
    exists f, makeplot s stability ip k = Ok f.
Proof.
  intros s stability ip k a h U L LT LV LB LP NR KM SH ST. unfold makeplot.
  assert (NE : s_r s <> []) by (intros C; rewrite C in LT; cbn in LT; lra).
  assert (E0 : exists v, pyget (s_r s) 0 = Ok v) by (destruct (s_r s); [contradiction|]; eexists; reflexivity). destruct E0 as (r0 & ->). cbn [bind].
  assert (En : exists v, pyget (s_r s) (-1) = Ok v).
  { destruct (nth_error (s_r s) (length (s_r s) - 1)) as [v|] eqn:N. - exists v. now apply pyget_last. - apply nth_error_None in N. destruct (s_r s); [contradiction|cbn in N; lia]. } destruct En as (rn & ->). cbn [bind].
  assert (L0 : 0 < INR (length (s_r s))) by (apply lt_0_INR; destruct (s_r s); [contradiction|cbn; lia]).
  destruct (Req_EM_T (plot_dr (s_r s)) 0) as [Z|_].
  { exfalso. unfold plot_dr in Z. assert (0 < (last (s_r s) 0 - hd 0 (s_r s)) / INR (length (s_r s))) by (apply Rdiv_lt_0_compat; lra). lra. }
  set (g := rexpand _ _ _).
  assert (NG : g <> []). { intros C. destruct (s_r s) as [|t r] eqn:ER; [contradiction|]. assert (IN : In t g) by (unfold g, rexpand; apply in_or_app; right; apply in_or_app; left; now left). now rewrite C in IN. }
  destruct (C51_original_points a h (s_x s) (s_y s) g U L NG) as (out & -> & LO & _). cbn [bind].
  assert (NF : rfine (s_r s) <> []). { destruct (C175_fit_grid (s_r s) LT) as (-> & _). destruct (s_r s); [contradiction|]. discriminate. }
  set (scale := get (k_scale k) 1). set (fine := rfine (s_r s)) in *.
  assert (NT : forall l : list R, l <> [] -> times scale l <> []) by (intros [|x l] H; [contradiction|discriminate]).
  assert (NL : forall l : list R, length l = length fine -> l <> []) by (intros l H C; subst l; destruct fine; [contradiction|discriminate]).
  set (all := (if k_fit k then _ else _) ++ _).
  assert (NA : forall l, In l all -> l <> []).
  { intros l Hl. unfold all in Hl. apply in_app_or in Hl as [Hl|Hl]; [|apply in_app_or in Hl as [Hl|Hl]].
    - destruct (k_fit k); [|destruct Hl]. destruct Hl as [<-|[]]. apply NT, NL, LV.
    - destruct (k_individual k); [|destruct Hl]. destruct Hl as [<-|Hl]; [apply NT, NL, LB|]. apply in_map_iff in Hl as (p & <- & Hp). apply plus_lists_ne; apply NT, NL; [apply LB|now apply LP].
    - destruct (k_observed k); [|destruct Hl]. destruct Hl as [<-|[]]. apply NT. destruct out; [destruct g; [contradiction|discriminate]|discriminate]. }
  assert (NN : all <> []). { unfold all. intros C. apply app_eq_nil in C as (C1 & C2). apply app_eq_nil in C2 as (C2 & C3). destruct SH as [S|[S|S]]; rewrite S in *; discriminate. }
  destruct (collect_total lmin all NA lmin_total) as (ms & -> & N1). cbn [bind]. destruct (lmin_total ms (N1 NN)) as (mn & ->). cbn [bind].
  destruct (collect_total lmax all NA lmax_total) as (xs & -> & N2). cbn [bind]. destruct (lmax_total xs (N2 NN)) as (mx & ->). cbn [bind].
  rewrite KM. cbn [mask].
  assert (NU : unmasked (map Some (times scale (s_residual s))) <> []) by (destruct (s_residual s); [contradiction|discriminate]).
  destruct (lmin_total _ NU) as (m1 & M1). destruct (lmax_total _ NU) as (m2 & M2). rewrite M1, M2.
  destruct (k_residual k); cbn [bind]; (destruct stability as [l|]; cbn [get] in *;
    [destruct (Rlt_dec 0 (get (k_dg k) 15)); [|eexists; reflexivity];
     destruct (dgseries l scale (k_dgmin k) (k_dgmax k) r0 (Some rn)) eqn:DG; [cbn [bind]; eexists; reflexivity|
       exfalso; destruct l as [|x l]; [contradiction|]; unfold dgseries in DG; cbn [pyget] in DG;
       assert (EL : exists v, pyget (x :: l) (-1) = Ok v) by (destruct (nth_error (x :: l) (length (x :: l) - 1)) as [v|] eqn:N; [exists v; now apply pyget_last|apply nth_error_None in N; cbn in N; lia]);
       destruct EL as (v & EL); rewrite EL in DG; cbn [bind] in DG; discriminate]|
     destruct (Rlt_dec 0 (get (k_dg k) 0)); [exfalso; lra|eexists; reflexivity]]).
Qed.

(** ** C177: the switches for individual peaks *)
(** Violated: show_individual=False does not remove the individual peaks from the picture, and
    with fill_individual=False they are not drawn although show_individual is set. *)
Theorem C177_show_individual_refuted :
  forall s stability ip k f, makeplot s stability ip k = Ok f ->
    (k_fill k = true -> length (f_filled f) = length (s_peaks s)) /\ (k_fill k = false -> f_filled f = []).
Proof.
  intros s stability ip k f E. unfold makeplot in E.
  destruct (pyget (s_r s) 0); [cbn [bind] in E|discriminate]. destruct (pyget (s_r s) (-1)); [cbn [bind] in E|discriminate]. destruct (Req_EM_T _ _); [discriminate|].
  repeat match type of E with bind ?x _ = Ok _ => destruct x; [cbn [bind] in E|discriminate] end.
  injection E as <-. cbn [f_filled]. destruct (k_fill k); split; intros H; try discriminate; [now rewrite !map_length|reflexivity].
Qed.

(** ** C178: explicit limits *)
(** Violated: with min_gr and max_gr given and only the residual shown makeplot still fails. *)
Theorem C178_residual_only_refuted :
  forall s stability ip k, k_fit k = false -> k_individual k = false -> k_observed k = false -> exists e, makeplot s stability ip k = Err e.
Proof.
  intros s stability ip k F I O. unfold makeplot. destruct (pyget (s_r s) 0); [cbn [bind]|now eexists]. destruct (pyget (s_r s) (-1)); [cbn [bind]|now eexists]. destruct (Req_EM_T _ _); [now eexists|].
  destruct (resample _ _ _); [cbn [bind]|now eexists]. rewrite F, I, O. cbn [app map collect_all bind lmin]. now eexists.
Qed.
(** Violated: room for the uncertainty inset cannot be asked for without stability results. *)
Theorem C178_inset_without_stability_refuted :
  forall s ip k h, k_dg k = Some h -> 0 < h -> exists e, makeplot s None ip k = Err e.
Proof.
  intros s ip k h K H. unfold makeplot. destruct (pyget (s_r s) 0); [cbn [bind]|now eexists]. destruct (pyget (s_r s) (-1)); [cbn [bind]|now eexists]. destruct (Req_EM_T _ _); [now eexists|].
  destruct (resample _ _ _); [cbn [bind]|now eexists].
  repeat match goal with |- exists e, bind ?x _ = Err e => destruct x eqn:?; cbn [bind]; [|now eexists] end.
  rewrite K in *. cbn [get] in *. destruct (Rlt_dec 0 h); [discriminate|contradiction].
Qed.

(** ** A case: three data points, a constant baseline, one peak, default settings *)
Example makeplot_example :
  exists f, makeplot (mkSrc [0; 1; 2] [1; 3; 1] [0; 1; 2] (map (fun _ => 2)) (map (fun _ => 1)) [map (fun _ => 1)] [-1; 1; -1] [1]) None None defaults = Ok f /\
    (exists v, data_value defaults f v) /\ (exists w, residual_value f w) /\ f_dg f = None /\ length (f_filled f) = 1%nat.
Proof.
  set (s := mkSrc _ _ _ _ _ _ _ _).
  assert (U : uniform 0 1 (s_x s)).
  { split; [lra|]. split; [cbn; lia|]. intros i t. destruct i as [|[|[|i]]]; cbn; intros H; [injection H as <-; lra|injection H as <-; lra|injection H as <-; lra|destruct i; discriminate]. }
  destruct (C176_succeeds s None None defaults 0 1 U eq_refl) as (f & E); try (cbn; lra); try (intros; cbn; now rewrite map_length); try discriminate; try reflexivity.
  { intros p g [<-|[]]. now rewrite map_length. }

  exists f. split; [exact E|].
  destruct (C177_show_individual_refuted s None None defaults f E) as (FI & _).
  assert (FI' : length (f_filled f) = 1%nat) by (apply FI; reflexivity).
  assert (O : exists xs ys, f_observed f = Some (xs, ys)).
  { unfold makeplot in E. cbn [s_r s pyget] in E. 
    repeat match type of E with bind ?x _ = Ok _ => destruct x; [cbn [bind] in E|discriminate] | (if ?x then _ else _) = Ok _ => destruct x; [discriminate|] end. injection E as <-. cbn [f_observed k_observed defaults]. eauto. }
  assert (RE : exists w, residual_value f w).
  { unfold makeplot in E.
    repeat match type of E with bind ?x _ = Ok _ => destruct x; [cbn [bind] in E|discriminate] | (if ?x then _ else _) = Ok _ => destruct x; [discriminate|] end. injection E as <-. unfold residual_value. cbn [f_residual k_residual defaults]. eexists. eexists. eexists. split; [reflexivity|]. cbn [k_mask defaults mask s_residual s times map option_map In]. left. reflexivity. }
  assert (DG : f_dg f = None).
  { unfold makeplot in E. cbn [k_dg defaults get] in E. destruct (Rlt_dec 0 0) as [C|_]; [lra|].
    repeat match type of E with bind ?x _ = Ok _ => destruct x eqn:?; [cbn [bind] in E|discriminate] | (if ?x then _ else _) = Ok _ => destruct x; [discriminate|] end. injection E as <-. cbn [f_dg]. congruence. }
  split; [|auto]. destruct O as (xs & ys & O).
  destruct (C175_observed_curve s None None defaults f 0 1 xs ys E U eq_refl O) as (L & IN & _). specialize (IN 0%nat 0 eq_refl).
  destruct ys as [|y ys]; [destruct xs; [destruct IN|discriminate]|]. exists y. left. exists xs, (y :: ys). split; [exact O|now left].
Qed.

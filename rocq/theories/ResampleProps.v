(** Properties C51 (resampling), C52 (error scale), C53 (running variance). *)
From Coq Require Import Reals Lra Sorted.
From Verif Require Import Prelude Evaluators EvaluatorsProps Resample.
Open Scope R_scope.

Lemma pyget_ok {A} (l : list A) i a : nth_error l i = Some a -> pyget l (Z.of_nat i) = Ok a.
Proof.
  intros H. unfold pyget. assert (i < length l)%nat by (apply nth_error_Some; congruence).
  destruct (Z.ltb_spec (Z.of_nat i) 0); [lia|]. destruct (Z.ltb_spec (Z.of_nat i) 0); [lia|]. destruct (Z.leb_spec (Z.of_nat (length l)) (Z.of_nat i)); [lia|].
  cbn [orb]. rewrite Nat2Z.id, H. reflexivity.
Qed.
Lemma pyget_none {A} (l : list A) i : (length l <= i)%nat -> pyget l (Z.of_nat i) = Err IndexError.
Proof.
  intros H. unfold pyget. destruct (Z.ltb_spec (Z.of_nat i) 0); [lia|]. destruct (Z.leb_spec (Z.of_nat (length l)) (Z.of_nat i)); [|lia]. now rewrite orb_true_r.
Qed.
Lemma pyget_last {A} (l : list A) a : nth_error l (length l - 1) = Some a -> pyget l (-1) = Ok a.
Proof.
  intros H. assert (length l - 1 < length l)%nat by (apply nth_error_Some; congruence). unfold pyget. cbn [Z.ltb Z.compare].
  destruct (Z.ltb_spec (-1 + Z.of_nat (length l)) 0); [lia|]. destruct (Z.leb_spec (Z.of_nat (length l)) (-1 + Z.of_nat (length l))); [lia|]. cbn [orb].
  replace (Z.to_nat (-1 + Z.of_nat (length l))) with (length l - 1)%nat by lia. rewrite H. reflexivity.
Qed.

(** ** C51 *)
(** *** Specification: the Whittaker-Shannon formula on a uniform grid r_i = a + i*h *)
Definition uniform (a h : R) (l : list R) : Prop :=
  h <> 0 /\ (2 <= length l)%nat /\ forall i v, nth_error l i = Some v -> v = a + INR i * h.
(** sum over i of y_i sinc((t - r_i)/h) *)
Definition shannon (h : R) (rs ys : list R) (t : R) : R :=
  Rsum (map (fun p => snd p * sinc ((t - fst p) / h)) (combine rs ys)).

Lemma sinc_0 : sinc 0 = 1.
Proof. unfold sinc. destruct (Req_EM_T 0 0); [reflexivity|contradiction]. Qed.
Lemma sinc_int (k : Z) : k <> 0%Z -> sinc (IZR k) = 0.
Proof.
  intros H. unfold sinc. assert (IZR k <> 0) by (intros E; apply eq_IZR in E; contradiction).
  destruct (Req_EM_T (IZR k) 0); [contradiction|]. rewrite sin_eq_0_1 by (exists k; ring).
  apply Rmult_0_l.
Qed.
Lemma uniform_dr a h l r0 rn : uniform a h l -> nth_error l 0 = Some r0 -> nth_error l (length l - 1) = Some rn ->
  (rn - r0) / (INR (length l) - 1) = h.
Proof.
  intros (H & L & U) E0 En. rewrite (U _ _ E0), (U _ _ En). rewrite minus_INR by lia. change (INR 1) with 1. change (INR 0) with 0.
  assert (2 <= INR (length l)) by (apply (le_INR 2); exact L). field. lra.
Qed.
Lemma sinc_sum_shannon a h : h <> 0 -> forall rs ys k, (length ys <= length rs)%nat ->
  (forall i v, nth_error rs i = Some v -> v = a + INR (k + i) * h) ->
  forall t, sinc_sum h (a / h) k ys t = shannon h rs ys t.
Proof.
  intros H. induction rs as [|r rs IH]; intros [|y ys] k L U t; try (cbn in L; lia); try reflexivity.
  cbn [sinc_sum]. unfold shannon. cbn [combine map Rsum fold_right fst snd]. change (fold_right Rplus 0) with Rsum.
  rewrite (U 0%nat r eq_refl), Nat.add_0_r.
  f_equal; [f_equal; f_equal; field; exact H|].
  apply IH; [cbn in L; lia|]. intros i v E. rewrite (U (S i) v E). f_equal. f_equal. f_equal. lia.
Qed.
Lemma shannon_at a h : h <> 0 -> forall rs ys k, length rs = length ys ->
  (forall i v, nth_error rs i = Some v -> v = a + INR (k + i) * h) ->
  forall z, (~ (Z.of_nat k <= z < Z.of_nat (k + length rs))%Z -> shannon h rs ys (a + IZR z * h) = 0) /\
  forall i y, nth_error ys i = Some y -> z = Z.of_nat (k + i) -> shannon h rs ys (a + IZR z * h) = y.
Proof.
  intros H. induction rs as [|r rs IH]; intros [|y ys] k L U z; try discriminate.
  - split; [reflexivity|]. intros [|i] y E; discriminate.
  - injection L as L. unfold shannon in *. cbn [combine map Rsum fold_right fst snd length]. change (fold_right Rplus 0) with Rsum.
    assert (A : (a + IZR z * h - r) / h = IZR (z - Z.of_nat k)).
    { rewrite (U 0%nat r eq_refl), Nat.add_0_r, minus_IZR, <- INR_IZR_INZ. field. exact H. }
    rewrite A. destruct (IH ys (S k) L) with (z := z) as [I1 I2].
    { intros i v E. rewrite (U (S i) v E). f_equal. f_equal. f_equal. lia. }
    split.
    + intros N. rewrite sinc_int by lia. rewrite I1 by lia. ring.
    + intros [|i] v E Z1; cbn [nth_error] in E.
      * injection E as <-. replace (z - Z.of_nat k)%Z with 0%Z by lia. rewrite sinc_0, I1 by lia. ring.
      * rewrite sinc_int by lia. rewrite (I2 i v E) by lia. ring.
Qed.

Theorem C51_formula :
  forall (a h : R) (orig_r orig_y new_r : list R),
    uniform a h orig_r -> length orig_y = length orig_r -> new_r <> [] ->
    exists out, resample orig_r orig_y new_r = Ok out /\ out = map (shannon h orig_r orig_y) new_r.
Proof.
  intros a h rs ys new U L N. pose proof U as (H & L2 & UU).
  destruct (nth_error rs 0) as [r0|] eqn:E0; [|apply nth_error_None in E0; lia].
  destruct (nth_error rs (length rs - 1)) as [rn|] eqn:En; [|apply nth_error_None in En; lia].
  unfold resample. change (pyget rs 0) with (pyget rs (Z.of_nat 0)). rewrite (pyget_ok _ _ _ E0), (pyget_last _ _ En). cbn [bind].
  destruct (Nat.eqb_spec (length rs) 1); [lia|]. rewrite (uniform_dr a h rs r0 rn U E0 En).
  destruct new as [|t new]; [contradiction|]. change (pyget (t :: new) 0) with (@Ok R t). cbn [bind].
  eexists. split; [reflexivity|]. apply map_ext. intros s.
  replace r0 with a by (rewrite (UU _ _ E0); cbn [INR]; ring). apply sinc_sum_shannon; [exact H|lia|]. intros i v E. rewrite (UU _ _ E). reflexivity.
Qed.

(** Same length as the new grid, and the original values at the original points. *)
Theorem C51_original_points :
  forall (a h : R) (orig_r orig_y new_r : list R),
    uniform a h orig_r -> length orig_y = length orig_r -> new_r <> [] ->
    exists out, resample orig_r orig_y new_r = Ok out /\ length out = length new_r /\
      forall i j t y, nth_error orig_r i = Some t -> nth_error orig_y i = Some y -> nth_error new_r j = Some t -> nth_error out j = Some y.
Proof.
  intros a h rs ys new U L N. destruct (C51_formula a h rs ys new U L N) as (out & E & F). exists out. split; [exact E|]. subst out. split; [apply map_length|].
  intros i j t y Ei Ey Ej. rewrite nth_error_map, Ej. cbn [option_map]. f_equal. destruct U as (H & _ & U).
  rewrite (U _ _ Ei), INR_IZR_INZ. destruct (shannon_at a h H rs ys 0 (eq_sym L) U (Z.of_nat i)) as [_ S]. now apply (S i).
Qed.
(** In particular, resampling on the same grid changes nothing. *)
Theorem C51_identity :
  forall (a h : R) (orig_r orig_y : list R),
    uniform a h orig_r -> length orig_y = length orig_r -> resample orig_r orig_y orig_r = Ok orig_y.
Proof.
  intros a h rs ys U L. destruct (C51_original_points a h rs ys rs U L) as (out & -> & LO & S).
  { destruct U as (_ & L2 & _). intros ->. cbn in L2. lia. }
  f_equal. apply nth_ext with (d := 0) (d' := 0); [congruence|]. intros n Hn.
  destruct (nth_error rs n) as [t|] eqn:Et; [|apply nth_error_None in Et; lia]. destruct (nth_error ys n) as [y|] eqn:Ey; [|apply nth_error_None in Ey; lia].
  pose proof (S n n t y Et Ey Et) as O. rewrite (nth_error_nth _ _ _ O), (nth_error_nth _ _ _ Ey). reflexivity.
Qed.
Theorem C51_errors :
  forall (orig_r orig_y new_r : list R),
    (orig_r = [] -> resample orig_r orig_y new_r = Err IndexError) /\
    ((2 <= length orig_r)%nat -> new_r = [] -> resample orig_r orig_y new_r = Err IndexError).
Proof.
  intros rs ys new. split; [intros ->; reflexivity|]. intros L ->. unfold resample.
  destruct (nth_error rs 0) as [r0|] eqn:E0; [|apply nth_error_None in E0; lia].
  destruct (nth_error rs (length rs - 1)) as [rn|] eqn:En; [|apply nth_error_None in En; lia].
  change (pyget rs 0) with (pyget rs (Z.of_nat 0)). rewrite (pyget_ok _ _ _ E0), (pyget_last _ _ En). cbn [bind].
  destruct (Nat.eqb_spec (length rs) 1); [lia|]. reflexivity.
Qed.
(** On a grid that is not uniform the values are not kept: 0, 1, 3. *)
Theorem C51_nonuniform_refuted :
  exists out, resample [0; 1; 3] [0; 1; 0] [1] = Ok [out] /\ out < 1.
Proof.
  eexists. split; [unfold resample; cbn [pyget length Nat.eqb Z.ltb Z.leb Z.compare bind nth_error orb map]; reflexivity|].
  cbn [sinc_sum]. cbn [INR length].
  match goal with |- ?x < 1 => replace x with (sinc (- (1/3))) end.
  - unfold sinc. destruct (Req_EM_T (- (1/3)) 0); [lra|]. replace (PI * - (1/3)) with (- (PI / 3)) by field. rewrite sin_neg.
    assert (0 < PI / 3) by (pose proof PI_RGT_0; lra). assert (sin (PI / 3) < PI / 3) by (apply sin_lt_x; exact H).
    replace (- sin (PI / 3) / - (PI / 3)) with (sin (PI / 3) / (PI / 3)) by (field; lra).
    apply Rmult_lt_reg_r with (PI / 3); [exact H|]. unfold Rdiv at 1. rewrite Rmult_assoc, Rinv_l by lra. lra.
  - replace (1 / ((3 - 0) / (1 + 1 + 1 - 1)) - (1 + 0 / ((3 - 0) / (1 + 1 + 1 - 1)))) with (- (1 / 3)) by field. ring.
Qed.

(** *** resampledata *)
Lemma ceil_spec x : x <= IZR (ceil x) < x + 1.
Proof. unfold ceil. destruct (archimed (- x)). rewrite opp_IZR, minus_IZR. lra. Qed.
Lemma arange_spec start stop step : 0 < step -> start < stop ->
  let l := arange start stop step in
  l <> [] /\ (forall i v, nth_error l i = Some v -> v = start + INR i * step /\ start <= v < stop) /\ stop <= start + INR (length l) * step.
Proof.
  intros S H l. set (x := (stop - start) / step). assert (X : 0 < x) by (apply Rdiv_lt_0_compat; lra).
  destruct (ceil_spec x) as [C1 C2]. assert (CP : (0 < ceil x)%Z) by (apply lt_IZR; lra).
  assert (LL : length l = Z.to_nat (ceil x)) by (unfold l, arange; rewrite map_length, seq_length; reflexivity).
  assert (SX : x * step = stop - start) by (unfold x; field; lra).
  split; [intros E; rewrite E in LL; cbn in LL; lia|]. split.
  - intros i v E. assert (Li : (i < length l)%nat) by (apply nth_error_Some; congruence). unfold l, arange in E. rewrite nth_error_map in E.
    destruct (nth_error (seq 0 (Z.to_nat (ceil ((stop - start) / step)))) i) as [k|] eqn:K; [|discriminate]. cbn [option_map] in E. injection E as <-.
    assert (k = i) as ->. { apply (nth_error_nth _ _ 0%nat) in K. rewrite seq_nth in K by (fold x; lia). cbn in K. auto. }
    split; [reflexivity|]. assert (Hi : INR i <= IZR (ceil x) - 1). { rewrite INR_IZR_INZ, <- minus_IZR. apply IZR_le. lia. }
    pose proof (pos_INR i). split; [assert (0 <= INR i * step) by (apply Rmult_le_pos; lra); lra|].
    assert (INR i * step < x * step) by (apply Rmult_lt_compat_r; lra). lra.
  - rewrite LL, INR_IZR_INZ, Z2Nat.id by lia. assert (x * step <= IZR (ceil x) * step) by (apply Rmult_le_compat_r; lra). lra.
Qed.

Lemma interp_from_bounds xs : forall x0 f0 fs t lo hi, length xs = length fs -> StronglySorted Rlt (x0 :: xs) -> x0 <= t ->
  (forall f, In f (f0 :: fs) -> lo <= f <= hi) -> lo <= interp_from x0 f0 xs fs t <= hi.
Proof.
  induction xs as [|x1 xs IH]; intros x0 f0 [|f1 fs] t lo hi L S T B; try discriminate; cbn [interp_from]; [apply B; now left|].
  injection L as L. inversion S as [|? ? S2 F]; subst. inversion F; subst. destruct (Rltb t x1) eqn:E.
  - apply Rltb_spec in E. pose proof (B f0 (or_introl eq_refl)). pose proof (B f1 (or_intror (or_introl eq_refl))).
    set (u := (t - x0) / (x1 - x0)). assert (U : 0 <= u <= 1).
    { unfold u. split; [apply Rmult_le_pos; [lra|left; apply Rinv_0_lt_compat; lra]|]. apply Rmult_le_reg_r with (x1 - x0); [lra|]. unfold Rdiv. rewrite Rmult_assoc, Rinv_l by lra. lra. }
    replace (f0 + (f1 - f0) / (x1 - x0) * (t - x0)) with ((1 - u) * f0 + u * f1) by (unfold u; field; lra). nra.
  - assert (x1 <= t) by (apply Rnot_lt_le; intros G; apply Rltb_spec in G; congruence). apply IH; auto. intros f Hf. apply B. now right.
Qed.
Lemma interp_bounds xs fs t lo hi : xs <> [] -> length xs = length fs -> StronglySorted Rlt xs ->
  (forall f, In f fs -> lo <= f <= hi) -> lo <= interp xs fs t <= hi.
Proof.
  destruct xs as [|x0 xs]; [contradiction|]. destruct fs as [|f0 fs]; [discriminate|]. intros _ L S B. injection L as L. cbn [interp].
  destruct (Rltb t x0) eqn:E; [apply B; now left|]. apply interp_from_bounds; auto. apply Rnot_lt_le. intros G; apply Rltb_spec in G; congruence.
Qed.
(** interpolation keeps the values at the grid points *)
Lemma interp_from_knots xs : forall x0 f0 fs i x f, length xs = length fs -> StronglySorted Rlt (x0 :: xs) ->
  nth_error (x0 :: xs) i = Some x -> nth_error (f0 :: fs) i = Some f -> interp_from x0 f0 xs fs x = f.
Proof.
  induction xs as [|x1 xs IH]; intros x0 f0 [|f1 fs] i x f L S Ex Ef; try discriminate; cbn [interp_from].
  - destruct i as [|[|i]]; cbn in *; congruence.
  - injection L as L. inversion S as [|? ? S2 F]; subst. pose proof F as F'. inversion F'; subst. destruct i as [|i]; cbn [nth_error] in Ex, Ef.
    + injection Ex as <-. injection Ef as <-. destruct (Rltb x0 x1) eqn:E; [ring|]. apply Rltb_spec in H1. congruence.
    + assert (x1 <= x). { destruct i as [|i]; cbn [nth_error] in Ex; [injection Ex as <-; lra|]. inversion S2 as [|? ? _ F2]; subst. apply nth_error_In in Ex. rewrite Forall_forall in F2. specialize (F2 x Ex). lra. }
      destruct (Rltb x x1) eqn:E; [apply Rltb_spec in E; lra|]. eapply IH; eauto.
Qed.

Lemma errorscale_ge q ny sc dr : 1 <= errorscale q ny sc dr.
Proof. unfold errorscale. destruct (_ && _ && _); [apply Rmax_r|lra]. Qed.

(** The data must be on an ascending grid with at least two points that meets the range. *)
Theorem C51_resampledata :
  forall (x y : list R) (dx : option (list R)) (edy : list R) (lo hi qmax : R) (nyq sc : bool) (dr x0 xn emin : R),
    StronglySorted Rlt x -> (2 <= length x)%nat -> nth_error x 0 = Some x0 -> nth_error x (length x - 1) = Some xn ->
    length edy = length x -> (forall e, In e edy -> 0 <= emin <= e) -> 0 < dr -> Rmax x0 lo < Rmin xn hi ->
    exists r ry rdx re, resampledata x y dx edy lo hi qmax nyq sc dr = Ok (r, ry, rdx, re) /\
      r <> [] /\ length ry = length r /\ length re = length r /\ (forall d, rdx = Some d -> length d = length r) /\ (dx = None <-> rdx = None) /\
      (* the grid: from the first admissible point in steps of dr, inside the range, up to its end *)
      (forall i t, nth_error r i = Some t -> t = Rmax x0 lo + INR i * dr /\ x0 <= t <= xn /\ lo <= t <= hi) /\
      Rmin xn hi <= Rmax x0 lo + INR (length r) * dr /\
      (* no uncertainty is smaller than the smallest given one *)
      (forall e, In e re -> emin <= e).
Proof.
  intros x y dx edy lo hi qmax nyq sc dr x0 xn emin S L2 E0 En LE EM D RNG. unfold resampledata.
  change (pyget x 0) with (pyget x (Z.of_nat 0)). rewrite (pyget_ok _ _ _ E0), (pyget_last _ _ En). cbn [bind].
  set (r := arange (Rmax x0 lo) (Rmin xn hi) dr). destruct (arange_spec _ _ dr D RNG) as (NE & G & ST). fold r in NE, G, ST.
  unfold resample. change (pyget x 0) with (pyget x (Z.of_nat 0)). rewrite (pyget_ok _ _ _ E0), (pyget_last _ _ En). cbn [bind].
  destruct (Nat.eqb_spec (length x) 1); [lia|]. assert (exists t r', r = t :: r') as (t & r' & ER) by (destruct r; [contradiction|eauto]).
  replace (pyget r 0) with (@Ok R t) by (rewrite ER; reflexivity). cbn [bind].
  eexists r, _, _, _. split; [reflexivity|]. split; [exact NE|]. split; [apply map_length|]. split; [apply map_length|].
  split; [intros d E; destruct dx; [injection E as <-; apply map_length|discriminate]|].
  split; [destruct dx; cbn [option_map]; split; intros; congruence|].
  split; [|split; [exact ST|]].
  - intros i v E. destruct (G i v E) as (A & B1 & B2). split; [exact A|]. pose proof (Rmax_l x0 lo). pose proof (Rmax_r x0 lo). pose proof (Rmin_l xn hi). pose proof (Rmin_r xn hi). lra.
  - intros e He. apply in_map_iff in He as (s & <- & _). assert (I : emin <= interp x edy s <= Rmax emin (fold_right Rmax 0 edy)).
    { apply interp_bounds; auto. { intros ->. discriminate. } intros f Hf. split; [apply EM; exact Hf|].
      apply Rle_trans with (fold_right Rmax 0 edy); [|apply Rmax_r]. clear - Hf. induction edy as [|a l IH]; [destruct Hf|]. cbn [fold_right]. destruct Hf as [->|Hf]; [apply Rmax_l|]. eapply Rle_trans; [apply IH; exact Hf|apply Rmax_r]. }
    pose proof (errorscale_ge qmax nyq sc dr). assert (0 <= emin). { destruct edy as [|e0 l]; [cbn in LE; lia|]. destruct (EM e0 (or_introl eq_refl)). assumption. } nra.
Qed.
(** A range that misses the data raises IndexError. *)
Theorem C51_empty_range :
  forall (x y : list R) (dx : option (list R)) (edy : list R) (lo hi qmax : R) (nyq sc : bool) (dr x0 xn : R),
    (2 <= length x)%nat -> nth_error x 0 = Some x0 -> nth_error x (length x - 1) = Some xn -> 0 < dr -> Rmin xn hi <= Rmax x0 lo ->
    resampledata x y dx edy lo hi qmax nyq sc dr = Err IndexError.
Proof.
  intros x y dx edy lo hi qmax nyq sc dr x0 xn L2 E0 En D H. unfold resampledata.
  change (pyget x 0) with (pyget x (Z.of_nat 0)). rewrite (pyget_ok _ _ _ E0), (pyget_last _ _ En). cbn [bind].
  assert (arange (Rmax x0 lo) (Rmin xn hi) dr = []) as ->.
  { unfold arange. assert ((Rmin xn hi - Rmax x0 lo) / dr <= 0) by (unfold Rdiv; apply Rmult_le_reg_r with dr; [exact D|]; rewrite Rmult_assoc, Rinv_l by lra; lra).
    destruct (ceil_spec ((Rmin xn hi - Rmax x0 lo) / dr)) as [_ C]. assert (ceil ((Rmin xn hi - Rmax x0 lo) / dr) < 1)%Z by (apply lt_IZR; lra).
    replace (Z.to_nat (ceil ((Rmin xn hi - Rmax x0 lo) / dr))) with 0%nat by lia. reflexivity. }
  destruct (C51_errors x y []) as [_ E]. rewrite E by auto. reflexivity.
Qed.

(** ** C52 *)
Theorem C52_error_scale :
  forall (qmax dr : R) (nyquist scale : bool), 0 < dr ->
    let s := errorscale qmax nyquist scale dr in
    let enabled := 0 < qmax /\ nyquist = true /\ scale = true in
    1 <= s /\
    (~ enabled -> s = 1) /\
    (enabled -> PI / qmax <= dr -> s = 1) /\
    (enabled -> dr < PI / qmax -> s = sqrt (PI / qmax / dr) /\ 1 < s) /\
    (* finer grids never have smaller uncertainties *)
    (forall dr', 0 < dr' <= dr -> s <= errorscale qmax nyquist scale dr').
Proof.
  intros q dr ny sc D s enabled. split; [apply errorscale_ge|].
  assert (EN : Rltb 0 q && ny && sc = true <-> enabled) by (unfold enabled; rewrite !andb_true_iff, Rltb_spec; tauto).
  assert (E1 : enabled -> s = Rmax (sqrt (PI / q / dr)) 1) by (intros H; unfold s, errorscale; rewrite (proj2 EN H); reflexivity).
  split; [|split; [|split]].
  - intros H. unfold s, errorscale. destruct (Rltb 0 q && ny && sc); [exfalso; apply H, EN; reflexivity|reflexivity].
  - intros H G. rewrite E1 by exact H. apply Rmax_right. rewrite <- sqrt_1. apply sqrt_le_1_alt. apply Rmult_le_reg_r with dr; [exact D|]. unfold Rdiv at 1. rewrite Rmult_assoc, Rinv_l by lra. lra.
  - intros H G. rewrite E1 by exact H. assert (1 < sqrt (PI / q / dr)).
    { rewrite <- sqrt_1 at 1. apply sqrt_lt_1_alt. split; [lra|]. apply Rmult_lt_reg_r with dr; [exact D|]. unfold Rdiv at 1. rewrite (Rmult_assoc (PI / q)), Rinv_l by lra. lra. }
    rewrite Rmax_left by lra. auto.
  - intros dr' [D1 D2]. unfold s, errorscale. destruct (Rltb 0 q && ny && sc) eqn:E; [|lra]. destruct (proj1 EN eq_refl) as (Q & _).
    apply Rmax_lub; [|apply Rmax_r]. eapply Rle_trans; [|apply Rmax_l]. apply sqrt_le_1_alt. unfold Rdiv. apply Rmult_le_compat_l; [|apply Rinv_le_contravar; lra].
    left. apply Rdiv_lt_0_compat; [apply PI_RGT_0|exact Q].
Qed.

(** ** C53 *)
(** *** Specification: population standard deviation *)
Definition mean (l : list R) : R := Rsum l / INR (length l).
Definition std (l : list R) : R := sqrt (Rsum (map (fun v => (v - mean l) ^ 2) l) / INR (length l)).

Definition sumsq (l : list R) : R := Rsum (map (fun v => v ^ 2) l).
Definition ss (l : list R) : R := Rsum (map (fun v => (v - mean l) ^ 2) l).
Lemma Rsum_app l l' : Rsum (l ++ l') = Rsum l + Rsum l'.
Proof. unfold Rsum. induction l as [|a l IH]; cbn [app fold_right]; [ring|rewrite IH; ring]. Qed.
Lemma sq_shift m l : Rsum (map (fun v => (v - m) ^ 2) l) = sumsq l - 2 * m * Rsum l + INR (length l) * m ^ 2.
Proof.
  unfold sumsq, Rsum. induction l as [|a l IH]; [cbn; ring|]. cbn [map fold_right length]. rewrite IH, S_INR. ring.
Qed.
Lemma len_pos (l : list R) : l <> [] -> 0 < INR (length l).
Proof. intros H. apply lt_0_INR. destruct l; [contradiction|cbn; lia]. Qed.
Lemma ss_eq l : l <> [] -> ss l = sumsq l - INR (length l) * mean l ^ 2.
Proof.
  intros H. unfold ss. rewrite sq_shift. pose proof (len_pos l H).
  assert (INR (length l) * mean l = Rsum l) by (unfold mean; field; lra). rewrite <- H1. ring.
Qed.
Lemma ss_nonneg l : 0 <= ss l.
Proof. unfold ss, Rsum. generalize (mean l). induction l as [|a l IH]; intros m; cbn [map fold_right]; [lra|]. pose proof (pow2_ge_0 (a - m)). specialize (IH m). lra. Qed.

(** the running state describes the values [l] *)
Definition describes (s : nat * R * R) (l : list R) : Prop :=
  l <> [] /\ fst (fst s) = length l /\ snd (fst s) = mean l /\ snd s = ss l.
Lemma mean_eq l : l <> [] -> INR (length l) * mean l = Rsum l.
Proof. intros H. pose proof (len_pos l H). unfold mean. field. lra. Qed.
Lemma describes_iff s l : l <> [] -> fst (fst s) = length l -> INR (length l) * snd (fst s) = Rsum l ->
  snd s = sumsq l - INR (length l) * snd (fst s) ^ 2 -> describes s l.
Proof.
  intros H A B C. pose proof (len_pos l H). assert (M : snd (fst s) = mean l) by (unfold mean; rewrite <- B; field; lra).
  split; [exact H|]. split; [exact A|]. split; [exact M|]. rewrite ss_eq by exact H. rewrite C, M. reflexivity.
Qed.
Lemma describes_add s l v : describes s l -> describes (add_one s v) (l ++ [v]).
Proof.
  intros (H & A & B & C). destruct s as [[n m] q]. cbn [fst snd] in *. subst n m q.
  pose proof (len_pos l H). pose proof (mean_eq l H) as M. rewrite ss_eq by exact H. cbn [add_one].
  apply describes_iff; cbn [fst snd].
  - destruct l; discriminate.
  - rewrite app_length. cbn [length]. lia.
  - rewrite app_length, plus_INR, Rsum_app. cbn [length]. rewrite (S_INR (length l)). change (INR 1) with 1. rewrite <- M. unfold Rsum. cbn [fold_right]. field. lra.
  - unfold sumsq. rewrite app_length, plus_INR, map_app, Rsum_app. cbn [length map]. fold (sumsq l).
    change (INR 1) with 1. rewrite (S_INR (length l)). replace (Rsum [v ^ 2]) with (v ^ 2) by (unfold Rsum; cbn [fold_right]; ring). field. lra.
Qed.
Lemma describes_first v : describes (add_one (O, 0, 0) v) [v].
Proof. apply describes_iff; cbn; try (unfold sumsq, Rsum; cbn); try discriminate; try reflexivity; try field. Qed.

Lemma describes_slide s v l a b : l <> [] -> describes s (v :: l) -> describes (slide s v a b) (l ++ [a; b]).
Proof.
  intros HL (H & A & B & C). destruct s as [[n m] q]. cbn [fst snd] in *. subst n m q. pose proof (len_pos l HL) as LP.
  pose proof (mean_eq (v :: l) H) as M. rewrite ss_eq by exact H. unfold slide.
  set (mu := mean (v :: l)) in *. unfold Rsum in M at 1. cbn [fold_right length] in M. fold (Rsum l) in M. rewrite S_INR in M.
  assert (SQ : sumsq (v :: l) = v ^ 2 + sumsq l) by reflexivity. rewrite SQ. cbn [length]. rewrite S_INR.
  replace (S (length l) - 1)%nat with (length l) by lia. rewrite plus_INR. change (INR 2) with 2.
  set (N := INR (length l)) in *. set (S0 := Rsum l) in *. set (V0 := sumsq l).
  assert (VV : v = (N + 1) * mu - S0) by lra.
  apply describes_iff; cbn [fst snd].
  - destruct l; discriminate.
  - rewrite app_length. reflexivity.
  - rewrite app_length, plus_INR, Rsum_app. fold N S0. change (INR (length [a; b])) with 2. unfold Rsum. cbn [fold_right]. rewrite VV. field. lra.
  - rewrite app_length, plus_INR. fold N. change (INR (length [a; b])) with 2. unfold sumsq. rewrite map_app, Rsum_app. fold (sumsq l). fold V0. unfold Rsum. cbn [map fold_right]. rewrite VV. field. lra.
Qed.

Lemma left_run_spec vs : forall s l, describes s l ->
  forall i, (i < length vs)%nat -> nth_error (left_run s vs) i = Some (ss (l ++ firstn (S i) vs)).
Proof.
  induction vs as [|v vs IH]; intros s l D i Hi; [cbn in Hi; lia|]. cbn [left_run]. pose proof (describes_add _ _ v D) as D'.
  destruct i as [|i]; cbn [nth_error firstn].
  - destruct D' as (_ & _ & _ & E). rewrite E. reflexivity.
  - cbn [length] in Hi. rewrite (IH _ _ D') by lia. rewrite <- app_assoc. reflexivity.
Qed.
Lemma left_run_0 vs i : (i < length vs)%nat -> nth_error (left_run (O, 0, 0) vs) i = Some (ss (firstn (S i) vs)).
Proof.
  destruct vs as [|v vs]; [cbn; lia|]. intros Hi. cbn [left_run]. pose proof (describes_first v) as D. destruct i as [|i]; cbn [nth_error].
  - destruct D as (_ & _ & _ & E). rewrite E. reflexivity.
  - cbn [length] in Hi. rewrite (left_run_spec vs _ _ D) by lia. reflexivity.
Qed.
Lemma left_run_length s vs : length (left_run s vs) = length vs.
Proof. revert s; induction vs as [|v vs IH]; intros s; cbn [left_run length]; [reflexivity|now rewrite IH]. Qed.

(** the window i+1 .. 2i+1 *)
Definition window (data : list R) (i : nat) : list R := firstn (i + 1) (skipn (i + 1) data).
Lemma firstn_2 {A} (l : list A) : forall k a b, nth_error l k = Some a -> nth_error l (S k) = Some b -> firstn (k + 2) l = firstn k l ++ [a; b].
Proof.
  induction l as [|c l IH]; intros [|k] a b E1 E2; try discriminate; cbn [nth_error] in *.
  - injection E1 as <-. destruct l; [discriminate|]. injection E2 as <-. reflexivity.
  - cbn [Nat.add firstn app]. f_equal. now apply IH.
Qed.
Lemma skipn_cons {A} (l : list A) : forall k a, nth_error l k = Some a -> skipn k l = a :: skipn (S k) l.
Proof. induction l as [|c l IH]; intros [|k] a E; try discriminate; cbn [nth_error] in *; [now injection E as <-|]. cbn [skipn]. now apply IH. Qed.
Lemma nth_skipn {A} (l : list A) a i : nth_error (skipn a l) i = nth_error l (a + i).
Proof. revert l; induction a as [|a IH]; intros [|x l]; cbn [skipn Nat.add nth_error]; try reflexivity; [destruct i; reflexivity|apply IH]. Qed.
Lemma right_run_spec data : forall k i s, (2 * (i + k) <= length data)%nat -> (2 <= i)%nat -> describes s (window data (i - 1)) ->
  exists out, right_run data s i k = Ok out /\ length out = k /\ forall j, (j < k)%nat -> nth_error out j = Some (ss (window data (i + j))).
Proof.
  induction k as [|k IH]; intros i s L I D; cbn [right_run]; [exists []; split; [reflexivity|]; split; [reflexivity|]; lia|].
  destruct (nth_error data i) as [v|] eqn:Ev; [|apply nth_error_None in Ev; lia].
  destruct (nth_error data (2 * i)) as [a|] eqn:Ea; [|apply nth_error_None in Ea; lia].
  destruct (nth_error data (2 * i + 1)) as [b|] eqn:Eb; [|apply nth_error_None in Eb; lia].
  rewrite (pyget_ok _ _ _ Ev), (pyget_ok _ _ _ Ea), (pyget_ok _ _ _ Eb). cbn [bind].
  assert (W : exists l, window data (i - 1) = v :: l /\ window data i = l ++ [a; b] /\ l <> []).
  { unfold window. replace (i - 1 + 1)%nat with i by lia. rewrite (skipn_cons _ _ _ Ev). destruct i as [|i']; [lia|]. cbn [firstn].
    exists (firstn i' (skipn (S (S i')) data)). split; [reflexivity|]. split.
    - replace (S i' + 1)%nat with (S (S i')) by lia. change (firstn (S (S i'))) with (@firstn R (S (S i'))). replace (S (S i')) with (i' + 2)%nat at 1 by lia. apply firstn_2; rewrite nth_skipn; [replace (S (S i') + i')%nat with (2 * S i')%nat by lia; exact Ea|replace (S (S i') + S i')%nat with (2 * S i' + 1)%nat by lia; exact Eb].
    - intros E. apply (f_equal (@length R)) in E. rewrite firstn_length, skipn_length in E. cbn [length] in E. lia. }
  destruct W as (l & W1 & W2 & W3). rewrite W1 in D. pose proof (describes_slide s v l a b W3 D) as D'. rewrite <- W2 in D'.
  destruct (IH (S i) (slide s v a b)) as (out & -> & LO & O).
  - lia.
  - lia.
  - replace (S i - 1)%nat with i by lia. exact D'.
  - cbn [bind]. exists (snd (slide s v a b) :: out). split; [reflexivity|]. split; [cbn [length]; lia|]. intros [|j] Hj; cbn [nth_error].
    + rewrite Nat.add_0_r. destruct D' as (_ & _ & _ & E). now rewrite E.
    + rewrite O by lia. replace (S i + j)%nat with (i + S j)%nat by lia. reflexivity.
Qed.

Lemma nth_combine {A B} (xs : list A) : forall (ys : list B) i x y, nth_error xs i = Some x -> nth_error ys i = Some y -> nth_error (combine xs ys) i = Some (x, y).
Proof.
  induction xs as [|a xs IH]; intros [|b ys] [|i] x y E1 E2; try discriminate; cbn [nth_error combine] in *; [congruence|auto].
Qed.
Lemma std_ratio l l' : l <> [] -> length l = length l' ->
  ratio (ss l, ss l') = if Req_EM_T (std l') 0 then None else Some (std l / std l').
Proof.
  intros H L. unfold ratio. cbn [fst snd]. assert (H' : l' <> []) by (intros ->; destruct l; [contradiction|discriminate]).
  pose proof (len_pos l' H') as P. unfold std. fold (ss l) (ss l'). rewrite L. set (N := INR (length l')) in *.
  pose proof (ss_nonneg l) as S1. pose proof (ss_nonneg l') as S2.
  destruct (Req_EM_T (ss l') 0) as [E|E].
  - destruct (Req_EM_T (sqrt (ss l' / N)) 0) as [_|G]; [reflexivity|]. exfalso. apply G. rewrite E. unfold Rdiv. rewrite Rmult_0_l. apply sqrt_0.
  - assert (0 < ss l') by lra. assert (0 < ss l' / N) by (apply Rdiv_lt_0_compat; lra).
    destruct (Req_EM_T (sqrt (ss l' / N)) 0) as [G|G]; [exfalso; apply sqrt_lt_R0 in H1; lra|].
    f_equal. rewrite <- sqrt_div_alt by exact H1. f_equal. field. lra.
Qed.

(** For sequences of at least four values, element i is std(data[:i+2])/std(data[i+2:2i+4])
    (None where the divisor is zero); shorter ones raise IndexError. *)
Theorem C53_stdratio :
  forall data : list R,
    ((length data < 4)%nat -> stdratio data = Err IndexError) /\
    ((4 <= length data)%nat -> exists out, stdratio data = Ok out /\ length out = (length data / 2 - 1)%nat /\
       forall i, (i < length data / 2 - 1)%nat ->
         let l := firstn (i + 2) data in let l' := firstn (i + 2) (skipn (i + 2) data) in
         length l = (i + 2)%nat /\ length l' = (i + 2)%nat /\
         nth_error out i = Some (if Req_EM_T (std l') 0 then None else Some (std l / std l'))).
Proof.
  intros data. split; intros L; unfold stdratio; set (limit := (length data / 2)%nat).
  - destruct (nth_error data 2) as [d2|] eqn:E2.
    + change (pyget data 2) with (pyget data (Z.of_nat 2)). rewrite (pyget_ok _ _ _ E2). cbn [bind]. change (pyget data 3) with (pyget data (Z.of_nat 3)). rewrite pyget_none by lia. reflexivity.
    + change (pyget data 2) with (pyget data (Z.of_nat 2)). apply nth_error_None in E2. rewrite pyget_none by lia. reflexivity.
  - assert (HL : (2 * limit <= length data)%nat) by (unfold limit; apply Nat.mul_div_le; lia). assert (H2 : (2 <= limit)%nat) by (unfold limit; apply (Nat.div_le_mono 4 _ 2); lia).
    destruct (nth_error data 2) as [d2|] eqn:E2; [|apply nth_error_None in E2; lia]. destruct (nth_error data 3) as [d3|] eqn:E3; [|apply nth_error_None in E3; lia].
    change (pyget data 2) with (pyget data (Z.of_nat 2)). change (pyget data 3) with (pyget data (Z.of_nat 3)). rewrite (pyget_ok _ _ _ E2), (pyget_ok _ _ _ E3). cbn [bind].
    set (m := (d2 + d3) / 2). set (q := (d2 - m) ^ 2 + (d3 - m) ^ 2).
    assert (W1 : window data 1 = [d2; d3]).
    { unfold window. change (1 + 1)%nat with 2%nat. rewrite (skipn_cons _ _ _ E2), (skipn_cons _ _ _ E3). reflexivity. }
    assert (D : describes (2%nat, m, q) (window data (2 - 1))).
    { cbn [Nat.sub]. rewrite W1. apply describes_iff; [discriminate|reflexivity| |]; cbn [fst snd length]; change (INR 2) with 2; unfold sumsq, q, m, Rsum; cbn [map fold_right]; field. }
    destruct (right_run_spec data (limit - 2) 2 (2%nat, m, q)) as (rt & -> & LR & R0); [lia|lia|exact D|]. cbn [bind].
    set (lf := left_run (O, 0, 0) (firstn limit data)). assert (LF : length lf = limit) by (unfold lf; rewrite left_run_length, firstn_length; lia).
    eexists. split; [reflexivity|]. assert (LS : length (skipn 1 lf) = (limit - 1)%nat) by (rewrite skipn_length; lia).
    split; [rewrite map_length, combine_length; cbn [length]; lia|].
    intros i Hi. set (l := firstn (i + 2) data). set (l' := firstn (i + 2) (skipn (i + 2) data)). assert (LL : length l = (i + 2)%nat) by (unfold l; rewrite firstn_length; lia). assert (LL' : length l' = (i + 2)%nat) by (unfold l'; rewrite firstn_length, skipn_length; lia).
    split; [exact LL|]. split; [exact LL'|]. rewrite nth_error_map.
    assert (A : nth_error (skipn 1 lf) i = Some (ss l)).
    { rewrite nth_skipn. unfold lf. rewrite left_run_0 by (rewrite firstn_length; lia). f_equal. f_equal. rewrite firstn_firstn. unfold l. f_equal. lia. }
    assert (C : nth_error (q :: rt) i = Some (ss l')).
    { destruct i as [|i]; cbn [nth_error].
      - f_equal. destruct D as (_ & _ & _ & E). cbn [snd] in E. rewrite E. reflexivity.
      - rewrite R0 by lia. f_equal. f_equal. unfold window, l'. f_equal; [lia|]. f_equal. lia. }
    assert (CC : nth_error (combine (skipn 1 lf) (q :: rt)) i = Some (ss l, ss l')).
    { apply nth_combine; [exact A|exact C]. }
    rewrite CC. cbn [option_map]. f_equal. apply std_ratio; [destruct l; [cbn in LL; lia|discriminate]|lia].
Qed.

(** ** The hypotheses are met *)
Example C51_uniform_example : uniform 1 (1/2) [1; 3/2; 2].
Proof. split; [lra|]. split; [cbn; lia|]. intros [|[|[|[|]]]] v E; cbn in E; try discriminate; injection E as <-; cbn [INR]; lra. Qed.
Example C51_resampledata_example : StronglySorted Rlt [1; 3/2; 2] /\ Rmax 1 0 < Rmin 2 (9/5).
Proof. split; [repeat constructor; lra|]. rewrite Rmax_left, Rmin_right by lra. lra. Qed.
Example C53_example : (4 <= length [0; 1; 2; 4; 8])%nat. Proof. cbn. lia. Qed.

Print Assumptions C51_formula.
Print Assumptions C51_original_points.
Print Assumptions C51_identity.
Print Assumptions C51_errors.
Print Assumptions C51_nonuniform_refuted.
Print Assumptions C51_resampledata.
Print Assumptions C51_empty_range.
Print Assumptions C52_error_scale.
Print Assumptions C53_stdratio.

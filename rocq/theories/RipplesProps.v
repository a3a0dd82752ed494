(** Properties C98 to C102: termination ripples. *)
From Coq Require Import Reals Lra Psatz.
From Verif Require Import Prelude CovarianceProofs Ripples RipplesProofs.
From Verif Require PeakFuncs PeakFuncsProofs PeakDerivProps.
Open Scope R_scope.

(** ** Specification *)
(** The uniform grid of n points from x0 with step d. *)
Definition grid (x0 d : R) (n : nat) : list R := map (fun i => x0 + INR i * d) (seq 0 n).
(** The frequency of Fourier component k of N samples at distance d. *)
Definition frequency (N : nat) (d : R) (k : nat) : R := 2 * PI * INR (Nat.min k (N - k)) / (INR N * d).
(** The two Fourier coefficients of a signal. *)
Definition cos_part (s : list R) (k : nat) : R := rsum (length s) (fun n => nth n s 0 * cos (2 * PI * INR k * INR n / INR (length s))).
Definition sin_part (s : list R) (k : nat) : R := rsum (length s) (fun n => nth n s 0 * sin (2 * PI * INR k * INR n / INR (length s))).

Lemma grid_length x0 d n : length (grid x0 d n) = n.
Proof. unfold grid. now rewrite map_length, seq_length. Qed.
Lemma grid_nth x0 d n i : (i < n)%nat -> nth_error (grid x0 d n) i = Some (x0 + INR i * d).
Proof. intros H. unfold grid. now rewrite map_seq_nth_error. Qed.
Lemma nth_error_eq {A} (l l' : list A) : length l = length l' -> (forall i, (i < length l)%nat -> nth_error l i = nth_error l' i) -> l = l'.
Proof.
  revert l'. induction l as [|a l IH]; intros [|b l'] HL H; try discriminate; [reflexivity|].
  pose proof (H 0%nat ltac:(cbn; lia)) as H0. injection H0 as <-. f_equal. apply IH; [now injection HL|]. intros i Hi. exact (H (S i) ltac:(cbn; lia)).
Qed.
Lemma arange_grid a b s : arange a b s = grid a s (length (arange a b s)).
Proof. rewrite arange_length. reflexivity. Qed.
Lemma last_nth (l : list R) d : l <> [] -> last l d = nth (length l - 1) l d.
Proof.
  induction l as [|a [|b l] IH]; intros H; [congruence|reflexivity|].
  change (last (a :: b :: l) d) with (last (b :: l) d). rewrite IH by discriminate. cbn [length]. replace (S (S (length l)) - 1)%nat with (S (S (length l) - 1)) by lia. reflexivity.
Qed.
Lemma grid_last x0 d n dflt : (0 < n)%nat -> last (grid x0 d n) dflt = x0 + INR (n - 1) * d.
Proof.
  intros H. rewrite last_nth; [|intros E; apply (f_equal (@length R)) in E; rewrite grid_length in E; cbn in E; lia].
  apply nth_error_nth. rewrite grid_length. apply grid_nth. lia.
Qed.
Lemma grid_app x0 d n m : grid x0 d n ++ grid (x0 + INR n * d) d m = grid x0 d (n + m).
Proof.
  apply nth_error_eq; [rewrite app_length, !grid_length; reflexivity|]. rewrite app_length, !grid_length. intros i Hi.
  rewrite grid_nth by exact Hi. destruct (Nat.lt_ge_cases i n) as [L|L].
  - rewrite nth_error_app1 by (rewrite grid_length; exact L). now rewrite grid_nth.
  - rewrite nth_error_app2 by (rewrite grid_length; exact L). rewrite grid_length, grid_nth by lia. f_equal. rewrite minus_INR by exact L. ring.
Qed.
Lemma grid_1 x d : grid x d 1 = [x].
Proof. cbn. f_equal. ring. Qed.
Lemma grid_rev a d n : rev (grid a (- d) n) = grid (a - INR (n - 1) * d) d n.
Proof.
  induction n as [|n IH]; [reflexivity|]. replace (S n) with (n + 1)%nat at 1 by lia. rewrite <- grid_app, grid_1, rev_app_distr, IH.
  cbn [rev app]. replace (S n - 1)%nat with n by lia.
  change (grid (a - INR n * d) d (S n)) with (grid (a - INR n * d) d (1 + n)). rewrite <- grid_app, grid_1. cbn [app INR]. f_equal; [ring|].
  destruct n as [|n]; [reflexivity|]. f_equal. cbn [Nat.sub]. rewrite Nat.sub_0_r, S_INR. ring.
Qed.
Lemma rslice_grid x0 d n a b : (a <= b <= n)%nat -> rslice (grid x0 d n) a b = grid (x0 + INR a * d) d (b - a).
Proof.
  intros H. unfold rslice. replace n with (a + ((b - a) + (n - b)))%nat by lia. rewrite <- grid_app.
  rewrite skipn_app, skipn_all2, grid_length, Nat.sub_diag by (rewrite grid_length; lia). cbn [app skipn].
  rewrite <- grid_app. rewrite firstn_app, grid_length, Nat.sub_diag. cbn [firstn]. rewrite app_nil_r. apply firstn_all2. rewrite grid_length. lia.
Qed.
Lemma nth_firstn {A} (l : list A) : forall k i, (i < k)%nat -> nth_error (firstn k l) i = nth_error l i.
Proof. induction l as [|a l IH]; intros [|k] [|i] H; cbn; try reflexivity; try lia. apply IH. lia. Qed.
Lemma nth_skip {A} (l : list A) : forall a i, nth_error (skipn a l) i = nth_error l (a + i).
Proof. induction l as [|x l IH]; intros [|a] i; cbn; try reflexivity; [now destruct i|apply IH]. Qed.
Lemma rslice_nth (l : list R) a b i : (i < b - a)%nat -> nth_error (rslice l a b) i = nth_error l (a + i).
Proof. intros H. unfold rslice. rewrite nth_firstn by exact H. apply nth_skip. Qed.
Lemma rslice_length (l : list R) a b : (b <= length l)%nat -> length (rslice l a b) = (b - a)%nat.
Proof. intros H. unfold rslice. rewrite firstn_length, skipn_length. lia. Qed.

Section Props.
Variables qmax extension supersample : R.
Hypothesis Q : 0 < qmax.
Hypothesis EX : 0 <= extension.
Notation reach := (extension * 2 * PI / qmax).

Lemma reach_pos : 0 <= reach.
Proof. pose proof PI_RGT_0. apply Rmult_le_pos; [|left; now apply Rinv_0_lt_compat]. apply Rmult_le_pos; lra. Qed.

(** ** C98 *)
Lemma last_dflt (l : list R) a b : l <> [] -> last l a = last l b.
Proof. intros H. rewrite !last_nth by exact H. apply nth_indep. destruct l; [congruence|cbn; lia]. Qed.
Lemma grid_hd x0 d n : (0 < n)%nat -> hd 0 (grid x0 d n) = x0.
Proof. intros H. destruct n; [lia|]. cbn. ring. Qed.
Lemma extend_def r dr : r <> [] -> extend_grid qmax extension r dr =
  (let left_ext := rev (arange (hd 0 r - dr) (Rmax 0 (hd 0 r - reach - dr)) (- dr)) in
   let right_ext := arange (last r 0 + dr) (last r 0 + reach + dr) dr in
   Ok (left_ext ++ r ++ right_ext, (length left_ext, (length (left_ext ++ r ++ right_ext) - length right_ext)%nat))).
Proof. intros H. rewrite (last_dflt r 0 (hd 0 r) H). destruct r as [|r0 r]; [congruence|]. reflexivity. Qed.
Lemma extend_unfold x0 d n : 0 < d -> (0 < n)%nat -> exists nl nr,
  extend_grid qmax extension (grid x0 d n) d = Ok (grid (x0 - INR nl * d) d (nl + n + nr), (nl, nl + n)%nat) /\
  (forall j, (j < nl)%nat <-> Rmax 0 (x0 - reach - d) < x0 - d - INR j * d) /\
  (forall j, (j < nr)%nat <-> INR j * d < reach).
Proof.
  intros HD HN. set (nl := length (arange (x0 - d) (Rmax 0 (x0 - reach - d)) (- d))).
  set (xl := x0 + INR (n - 1) * d). set (nr := length (arange (xl + d) (xl + reach + d) d)).
  exists nl, nr. split; [|split].
  - rewrite extend_def by (intros G; apply (f_equal (@length R)) in G; rewrite grid_length in G; cbn in G; lia).
    rewrite grid_hd by exact HN. rewrite grid_last by exact HN. fold xl.
    cbv zeta. rewrite (arange_grid (x0 - d) _ (- d)). fold nl. rewrite grid_rev. rewrite (arange_grid (xl + d)). fold nr.
    assert (E : grid (x0 - d - INR (nl - 1) * d) d nl ++ grid x0 d n ++ grid (xl + d) d nr = grid (x0 - INR nl * d) d (nl + n + nr)).
    { rewrite <- (grid_app _ d (nl + n)), <- (grid_app _ d nl), <- app_assoc. f_equal.
      - destruct nl as [|k]; [reflexivity|]. f_equal. cbn [Nat.sub]. rewrite Nat.sub_0_r, S_INR. ring.
      - f_equal; [f_equal; ring|]. f_equal. unfold xl. rewrite plus_INR, minus_INR by lia. cbn [INR]. ring. }
    rewrite E. rewrite !grid_length. do 3 f_equal. lia.
  - intros j. apply arange_down. exact HD.
  - intros j. unfold nr. rewrite arange_up by exact HD. split; intros; lra.
Qed.

(** The calculation grid extends the given uniform grid: the returned slice selects the
    given points, the spacing is the same throughout, every added point is positive and
    within the extension (plus one step), and the grid reaches at least as far as the
    extension on the right, and on the left unless it would come closer to 0 than one step. *)
Theorem C98_extended_grid :
  forall x0 d n, 0 < d -> (0 < n)%nat ->
    exists y0 m a b, extend_grid qmax extension (grid x0 d n) d = Ok (grid y0 d m, (a, b)) /\
      (a <= b <= m)%nat /\ rslice (grid y0 d m) a b = grid x0 d n /\
      (forall i x, nth_error (grid y0 d m) i = Some x ->
         ((i < a)%nat -> 0 < x < x0 /\ x0 - reach - d < x) /\
         ((b <= i)%nat -> x0 + INR (n - 1) * d < x < x0 + INR (n - 1) * d + reach + d)) /\
      y0 <= Rmax d (x0 - reach) /\ x0 + INR (n - 1) * d + reach <= y0 + INR (m - 1) * d.
Proof.
  intros x0 d n HD HN. destruct (extend_unfold x0 d n HD HN) as (nl & nr & E & HL & HR). pose proof reach_pos as RP.
  exists (x0 - INR nl * d), (nl + n + nr)%nat, nl, (nl + n)%nat. split; [exact E|]. split; [lia|].
  split. { rewrite rslice_grid by lia. f_equal; [ring|lia]. }
  split.
  { intros i x Hx. assert (Hi : (i < nl + n + nr)%nat). { rewrite <- (grid_length (x0 - INR nl * d) d (nl + n + nr)). apply nth_error_Some. congruence. }
    rewrite grid_nth in Hx by exact Hi. injection Hx as <-. split; intros G.
    - pose proof (proj1 (HL (nl - i - 1)%nat) ltac:(lia)) as M. rewrite !minus_INR in M by lia. cbn [INR] in M.
      pose proof (Rmax_l 0 (x0 - reach - d)). pose proof (Rmax_r 0 (x0 - reach - d)).
      assert (0 < INR nl - INR i) by (rewrite <- minus_INR by lia; apply lt_0_INR; lia). split; [split|]; nra.
    - pose proof (proj1 (HR (i - (nl + n))%nat) ltac:(lia)) as M. rewrite minus_INR, plus_INR in M by lia. rewrite minus_INR by lia. cbn [INR].
      assert (INR nl + INR n <= INR i) by (rewrite <- plus_INR; apply le_INR; lia). split; nra. }
  split.
  - destruct (Rlt_dec (Rmax 0 (x0 - reach - d)) (x0 - d - INR nl * d)) as [G|G]; [apply HL in G; lia|].
    unfold Rmax in *. destruct (Rle_dec 0 (x0 - reach - d)), (Rle_dec d (x0 - reach)); lra.
  - destruct (Rlt_dec (INR nr * d) reach) as [G|G]; [apply HR in G; lia|]. rewrite !minus_INR, !plus_INR by lia. cbn [INR]. lra.
Qed.

(** Without a point there is nothing to extend: IndexError. *)
Theorem C98_empty_grid : forall d, extend_grid qmax extension [] d = Err IndexError.
Proof. reflexivity. Qed.

(** ** C99 *)
(** Cutting keeps the length and is linear. *)
Theorem C99_length : forall s d, length (cut_freq qmax s d) = length s.
Proof. intros s d. apply cut_freq_length. Qed.

Lemma zre_lin a b s t d i : length s = length t ->
  zre qmax (map (fun p => a * fst p + b * snd p) (combine s t)) d i = a * zre qmax s d i + b * zre qmax t d i.
Proof.
  intros HL. unfold zre. rewrite map_length, combine_length, <- HL, Nat.min_id. cbv zeta. set (N := padlen (length s)).
  assert (NTH : forall n, nth n (map (fun p => a * fst p + b * snd p) (combine s t)) 0 = a * nth n s 0 + b * nth n t 0).
  { intros n. transitivity (nth n (map (fun p => a * fst p + b * snd p) (combine s t)) ((fun p => a * fst p + b * snd p) (0, 0))); [f_equal; cbn; ring|].
    set (g := fun p : R * R => a * fst p + b * snd p). change (nth n (map g (combine s t)) (g (0, 0)) = a * nth n s 0 + b * nth n t 0).
    rewrite map_nth, combine_nth by exact HL. reflexivity. }
  assert (RE : forall k, re_of (map (fun p => a * fst p + b * snd p) (combine s t)) N k = a * re_of s N k + b * re_of t N k).
  { intros k. unfold re_of. rewrite map_length, combine_length, <- HL, Nat.min_id. rewrite <- !rsum_scal, <- rsum_plus. apply rsum_ext. intros n _. rewrite NTH. ring. }
  assert (IM : forall k, im_of (map (fun p => a * fst p + b * snd p) (combine s t)) N k = a * im_of s N k + b * im_of t N k).
  { intros k. unfold im_of. rewrite map_length, combine_length, <- HL, Nat.min_id.
    rewrite (rsum_ext _ _ (fun n => a * (nth n s 0 * sin (angle N k n)) + b * (nth n t 0 * sin (angle N k n)))) by (intros n _; rewrite NTH; ring).
    rewrite rsum_plus, !rsum_scal. ring. }
  rewrite (rsum_ext N _ (fun k => a * maskR (gone qmax N d k) (re_of s N k * cos (angle N k i) - im_of s N k * sin (angle N k i)) +
                                  b * maskR (gone qmax N d k) (re_of t N k * cos (angle N k i) - im_of t N k * sin (angle N k i)))).
  - rewrite rsum_plus, !rsum_scal. ring.
  - intros k _. rewrite RE, IM. unfold maskR. destruct (gone qmax N d k); ring.
Qed.
Theorem C99_linear :
  forall a b s t d, length s = length t ->
    cut_freq qmax (map (fun p => a * fst p + b * snd p) (combine s t)) d =
    map (fun p => a * fst p + b * snd p) (combine (cut_freq qmax s d) (cut_freq qmax t d)).
Proof.
  intros a b s t d HL. assert (LL : length (map (fun p => a * fst p + b * snd p) (combine s t)) = length s) by (rewrite map_length, combine_length, <- HL; lia).
  apply nth_error_eq.
  - rewrite cut_freq_length, LL, map_length, combine_length, !cut_freq_length. lia.
  - rewrite cut_freq_length, LL. intros i Hi. rewrite cut_freq_nth by (rewrite LL; exact Hi). rewrite zre_lin by exact HL.
    rewrite nth_error_map. rewrite (nth_error_nth' (combine _ _) (0, 0)) by (rewrite combine_length, !cut_freq_length; lia).
    rewrite combine_nth by (rewrite !cut_freq_length; exact HL). cbn [option_map fst snd].
    rewrite (nth_error_nth _ _ 0 (cut_freq_nth qmax s d i Hi)). rewrite HL in Hi. rewrite (nth_error_nth _ _ 0 (cut_freq_nth qmax t d i Hi)). reflexivity.
Qed.

(** Nothing is lost when the imaginary part is dropped: it is zero. *)
Theorem C99_real : forall s d, 0 < d -> Forall (fun z => snd z = 0) (cut_complex qmax s d).
Proof.
  intros s d HD. apply Forall_forall. intros z Hz. apply In_nth_error in Hz as (i & Hi).
  assert (L : (i < padlen (length s))%nat) by (rewrite <- (cut_complex_length qmax s d); apply nth_error_Some; congruence).
  rewrite cut_complex_nth in Hi by exact L. injection Hi as <-. cbn [snd]. now apply zim_zero.
Qed.

(** On a signal whose length is a power of two (no padding), exactly the components with
    frequency below qmax (N-1)/N are kept, unchanged; all others become zero. *)
Lemma pow2_pad (s : list R) e : length s = (2 ^ e)%nat -> length s = padlen (length s).
Proof. intros E. unfold padlen. rewrite E. now rewrite Nat.log2_up_pow2 by lia. Qed.
Theorem C99_spectrum :
  forall s d e k, 0 < d -> length s = (2 ^ e)%nat -> (k < length s)%nat ->
    let N := length s in
    let cutoff := qmax * (INR N - 1) / INR N in
    (frequency N d k < cutoff -> cos_part (cut_freq qmax s d) k = cos_part s k /\ sin_part (cut_freq qmax s d) k = sin_part s k) /\
    (cutoff <= frequency N d k -> cos_part (cut_freq qmax s d) k = 0 /\ sin_part (cut_freq qmax s d) k = 0).
Proof.
  intros s d e k HD HE HK N cutoff. pose proof (spectrum qmax Q s d k HD (pow2_pad _ _ HE) HK) as [S1 S2].
  assert (C : forall t, length t = N -> cos_part t k = re_of t N k /\ sin_part t k = - im_of t N k).
  { intros t Ht. unfold cos_part, sin_part, re_of, im_of. rewrite Ht. split; [reflexivity|]. rewrite Ropp_involutive. reflexivity. }
  destruct (C (cut_freq qmax s d) (cut_freq_length qmax s d)) as [C1 C2]. destruct (C s eq_refl) as [C3 C4].
  rewrite C1, C2, C3, C4. fold N in S1, S2. rewrite S1, S2. pose proof (gone_spec qmax Q N d k ltac:(unfold N; lia) HD HK) as G.
  fold (frequency N d k) in G. fold cutoff in G. unfold maskR. split; intros H.
  - rewrite (proj2 G H). split; ring.
  - destruct (gone qmax N d k) eqn:E; [split; ring|]. pose proof (proj1 G eq_refl). lra.
Qed.

(** So a signal without components at or above the cut-off is not changed at all, and
    cutting twice is cutting once. *)
Theorem C99_band_limited_unchanged :
  forall s d e, 0 < d -> length s = (2 ^ e)%nat ->
    (forall k, (k < length s)%nat -> qmax * (INR (length s) - 1) / INR (length s) <= frequency (length s) d k -> cos_part s k = 0 /\ sin_part s k = 0) ->
    cut_freq qmax s d = s.
Proof.
  intros s d e HD HE H. pose proof (pow2_pad _ _ HE) as HP. apply nth_error_eq; [apply cut_freq_length|]. rewrite cut_freq_length. intros i Hi.
  rewrite cut_freq_nth by exact Hi. rewrite (nth_error_nth' s 0) by exact Hi. f_equal. rewrite <- (inversion s i Hi). cbv zeta.
  unfold zre. cbv zeta. rewrite <- HP. f_equal. apply rsum_ext. intros k K. unfold maskR. destruct (gone qmax (length s) d k) eqn:G; [|reflexivity].
  assert (F : qmax * (INR (length s) - 1) / INR (length s) <= frequency (length s) d k).
  { apply Rnot_lt_le. intros F. apply (gone_spec qmax Q) in F; [congruence|lia|exact HD|exact K]. }
  destruct (H k K F) as [H1 H2]. assert (E1 : re_of s (length s) k = 0) by exact H1.
  assert (E2 : im_of s (length s) k = 0) by (unfold im_of; change (- sin_part s k = 0); rewrite H2; ring). rewrite E1, E2. ring.
Qed.
Theorem C99_idempotent :
  forall s d e, 0 < d -> length s = (2 ^ e)%nat -> cut_freq qmax (cut_freq qmax s d) d = cut_freq qmax s d.
Proof.
  intros s d e HD HE. apply (C99_band_limited_unchanged _ d e HD); [rewrite cut_freq_length; exact HE|].
  rewrite cut_freq_length. intros k K F. now apply (C99_spectrum s d e k HD HE K).
Qed.

(** ** C100 *)
Lemma stride_from_nth k : (0 < k)%nat -> forall l skip j, nth_error (stride_from k skip l) j = nth_error l (skip + j * k).
Proof.
  intros K. induction l as [|a l IH]; intros skip j; [cbn; now rewrite !(proj2 (nth_error_None _ _)) by (cbn; lia)|].
  cbn [stride_from]. destruct skip as [|skip].
  - destruct j as [|j]; [reflexivity|]. cbn [nth_error]. rewrite IH. replace (0 + S j * k)%nat with (S (k - 1 + j * k)) by (cbn; lia). reflexivity.
  - rewrite IH. reflexivity.
Qed.
Lemma stride_nth k l j : (0 < k)%nat -> nth_error (stride k l) j = nth_error l (j * k).
Proof. intros K. unfold stride. now rewrite stride_from_nth. Qed.
Lemma stride_length k l m : (0 < k)%nat -> (0 < m)%nat -> length l = ((m - 1) * k + 1)%nat -> length (stride k l) = m.
Proof.
  intros K M L. destruct (Nat.lt_trichotomy (length (stride k l)) m) as [G|[G|G]]; [|exact G|].
  - assert (N : nth_error (stride k l) (m - 1) = None) by (apply nth_error_None; lia). rewrite stride_nth in N by exact K.
    apply nth_error_None in N. lia.
  - assert (N : nth_error (stride k l) m <> None) by (apply nth_error_Some; lia). rewrite stride_nth in N by exact K.
    apply nth_error_Some in N. rewrite L in N. nia.
Qed.

Hypothesis SU : 0 < supersample.
Notation dsuper := (dr_super qmax supersample).
Lemma dsuper_pos : 0 < dsuper.
Proof. pose proof PI_RGT_0. unfold dr_super. apply Rdiv_lt_0_compat; [lra|]. now apply Rmult_lt_0_compat. Qed.

Lemma spacing_grid x0 d n : (2 <= n)%nat -> spacing (grid x0 d n) = d.
Proof.
  intros H. unfold spacing. rewrite grid_last, grid_hd, grid_length by lia. rewrite minus_INR by lia. cbn [INR].
  assert (2 <= INR n) by (apply (le_INR 2); lia). field. lra.
Qed.
(** The number of subdivisions: the least that makes the step at most dr_super. *)
Definition segs (d : R) : nat := Z.to_nat (ceilZ (d / dsuper)).
Lemma segs_spec d : 0 < d -> (0 < segs d)%nat /\ IZR (ceilZ (d / dsuper)) = INR (segs d) /\ d / INR (segs d) <= dsuper /\
  (forall k, (0 < k)%nat -> d / INR k <= dsuper -> (segs d <= k)%nat).
Proof.
  intros HD. pose proof dsuper_pos as SP. assert (X : 0 < d / dsuper) by (now apply Rdiv_lt_0_compat).
  pose proof (ceilZ_spec (d / dsuper)) as C. assert (P0 : (0 < ceilZ (d / dsuper))%Z) by (apply lt_IZR; lra).
  assert (E : IZR (ceilZ (d / dsuper)) = INR (segs d)) by (unfold segs; rewrite INR_IZR_INZ, Z2Nat.id by lia; reflexivity).
  assert (LE : forall k, (0 < k)%nat -> (d / INR k <= dsuper <-> d / dsuper <= INR k)).
  { intros k K. assert (0 < INR k) by (now apply lt_0_INR). split; intros H0.
    - apply (Rmult_le_compat_r (INR k / dsuper)) in H0; [|left; now apply Rdiv_lt_0_compat].
      replace (d / INR k * (INR k / dsuper)) with (d / dsuper) in H0 by (field; lra). replace (dsuper * (INR k / dsuper)) with (INR k) in H0 by (field; lra). exact H0.
    - apply (Rmult_le_compat_r (dsuper / INR k)) in H0; [|left; now apply Rdiv_lt_0_compat].
      replace (d / dsuper * (dsuper / INR k)) with (d / INR k) in H0 by (field; lra). replace (INR k * (dsuper / INR k)) with dsuper in H0 by (field; lra). exact H0. }
  assert (S0 : (0 < segs d)%nat) by (unfold segs; lia).
  split; [exact S0|]. split; [exact E|]. split; [apply LE; [exact S0|rewrite <- E; lra]|].
  intros k K H. apply LE in H; [|exact K]. unfold segs. apply Nat.le_ngt. intros G. apply ceilZ_nat_lt in G. lra.
Qed.

Lemma rippled_grid y0 d m : 0 < d -> (0 < m)%nat -> exists nl nr, forall f,
  rippled qmax extension f (grid y0 d m) d = Ok (rslice (cut_freq qmax (map f (grid (y0 - INR nl * d) d (nl + m + nr))) d) nl (nl + m)) /\
  (0 <= y0 -> forall x, In x (grid (y0 - INR nl * d) d (nl + m + nr)) -> x = y0 \/ 0 < x).
Proof.
  intros HD HM. destruct (extend_unfold y0 d m HD HM) as (nl & nr & E & HL & HR). exists nl, nr. intros f. unfold rippled. rewrite E. cbn [bind]. split; [reflexivity|].
  intros Y x Hx. apply In_nth_error in Hx as (i & Hx).
  assert (Hi : (i < nl + m + nr)%nat) by (rewrite <- (grid_length (y0 - INR nl * d) d (nl + m + nr)); apply nth_error_Some; congruence).
  rewrite grid_nth in Hx by exact Hi. injection Hx as <-.
  destruct (Nat.lt_trichotomy i nl) as [G1|[->|G1]].
  - right. pose proof (proj1 (HL (nl - i - 1)%nat) ltac:(lia)) as M. rewrite !minus_INR in M by lia. cbn [INR] in M. pose proof (Rmax_l 0 (y0 - reach - d)). nra.
  - left. ring.
  - right. assert (INR nl < INR i) by (apply lt_INR; lia). nra.
Qed.

Lemma place_ok n a b v : length v = (b - a)%nat -> (a <= b <= n)%nat ->
  place n a b v = Ok (repeat 0 a ++ v ++ repeat 0 (n - b)) /\ length (repeat 0 a ++ v ++ repeat 0 (n - b)) = n /\
  (forall i, (i < n)%nat -> (a <= i < b)%nat -> nth_error (repeat 0 a ++ v ++ repeat 0 (n - b)) i = nth_error v (i - a)) /\
  (forall i, (i < n)%nat -> ~ (a <= i < b)%nat -> nth_error (repeat 0 a ++ v ++ repeat 0 (n - b)) i = Some 0).
Proof.
  intros L H. unfold place. rewrite L, Nat.eqb_refl. split; [reflexivity|]. split; [rewrite !app_length, !repeat_length; lia|]. split; intros i Hi G.
  - rewrite nth_error_app2, repeat_length by (rewrite repeat_length; lia). apply nth_error_app1. lia.
  - destruct (Nat.lt_ge_cases i a) as [G1|G1].
    + rewrite nth_error_app1 by (rewrite repeat_length; exact G1). now apply nth_error_repeat.
    + rewrite nth_error_app2, repeat_length by (rewrite repeat_length; lia). rewrite nth_error_app2 by lia. apply nth_error_repeat. lia.
Qed.
Lemma fine_grid x0 d n a b : 0 < d -> (2 <= n)%nat -> (a < b <= n)%nat ->
  fine_part qmax supersample (grid x0 d n) (rslice (grid x0 d n) a b) = grid (x0 + INR a * d) (d / INR (segs d)) ((b - a - 1) * segs d + 1).
Proof.
  intros HD HN AB. destruct (segs_spec d HD) as (S0 & SE & SL & SM). assert (S1 : 1 <= INR (segs d)) by (apply (le_INR 1); lia).
  unfold fine_part, segments. rewrite spacing_grid by exact HN. rewrite rslice_grid by lia. rewrite SE. rewrite grid_hd, grid_last by lia.
  destruct (Z.ltb_spec 1 (ceilZ (d / dsuper))) as [G|G].
  - rewrite arange_grid. f_equal. rewrite arange_length.
    set (m := (b - a - 1)%nat). set (k := segs d) in *. replace (x0 + INR a * d + INR m * d + d / INR k / 2 - (x0 + INR a * d)) with (INR m * d + d / INR k / 2) by ring.
    replace ((INR m * d + d / INR k / 2) / (d / INR k)) with (INR (m * k) + / 2) by (rewrite mult_INR; field; lra).
    assert (C : ceilZ (INR (m * k) + / 2) = Z.of_nat (m * k + 1)).
    { apply ceilZ_unique. rewrite <- INR_IZR_INZ, plus_INR. cbn [INR]. lra. }
    rewrite C. lia.
  - assert (E1 : segs d = 1%nat) by (unfold segs in *; lia). rewrite E1. cbn [INR]. f_equal; [field|lia].
Qed.

Lemma value_grid x0 d n rng a b nl nr : 0 < d -> (2 <= n)%nat ->
  match rng with None => a = 0%nat /\ b = n | Some p => p = (a, b) end -> (a < b <= n)%nat ->
  let k := segs d in let ya := x0 + INR a * d in let mf := ((b - a - 1) * k + 1)%nat in let e := d / INR k in
  (forall f, rippled qmax extension f (grid ya e mf) e = Ok (rslice (cut_freq qmax (map f (grid (ya - INR nl * e) e (nl + mf + nr))) e) nl (nl + mf))) ->
  forall f, exists out, value qmax extension supersample true f (grid x0 d n) rng = Ok out /\ length out = n /\
    (forall i, (i < n)%nat -> (a <= i < b)%nat -> nth_error out i = nth_error (cut_freq qmax (map f (grid (ya - INR nl * e) e (nl + mf + nr))) e) (nl + (i - a) * k)) /\
    (forall i, (i < n)%nat -> ~ (a <= i < b)%nat -> nth_error out i = Some 0).
Proof.
  intros HD HN HR AB k ya mf e RG f. destruct (segs_spec d HD) as (S0 & SE & SL & SM). fold k in S0, SE, SL, SM.
  pose proof (RG f) as RE. set (cut := cut_freq qmax _ _) in *.
  assert (LC : length cut = (nl + mf + nr)%nat) by (unfold cut; rewrite cut_freq_length, map_length, grid_length; reflexivity).
  assert (LV : length (stride k (rslice cut nl (nl + mf))) = (b - a)%nat) by (apply stride_length; [exact S0|lia|rewrite rslice_length by lia; unfold mf; lia]).
  destruct (place_ok n a b _ LV ltac:(lia)) as (PE & PL & PI_ & PO). eexists. split; [|split; [exact PL|split; [|exact PO]]].
  - unfold value. cbn [negb]. assert (RR : match rng with None => (0%nat, length (grid x0 d n)) | Some p => p end = (a, b)).
    { destruct rng as [p|]; [exact HR|]. destruct HR as [-> ->]. now rewrite grid_length. } rewrite RR. rewrite grid_length.
    destruct n as [|[|n']]; [lia|lia|]. set (n := S (S n')) in *. cbv zeta.
    pose proof (fine_grid x0 d n a b HD HN AB) as FG. fold k ya mf in FG. fold e in FG.
    assert (RL : length (rslice (grid x0 d n) a b) = (b - a)%nat) by (apply rslice_length; rewrite grid_length; lia).
    destruct (rslice (grid x0 d n) a b) as [|g0 gr]; [cbn in RL; lia|]. rewrite FG. unfold segments at 1. rewrite spacing_grid by exact HN. rewrite SE. fold e. rewrite RE. cbn [bind].
    unfold segments. rewrite spacing_grid by exact HN. exact PE.
  - intros i Hi G. rewrite PI_ by assumption. rewrite stride_nth by exact S0. rewrite rslice_nth by (unfold mf; nia). reflexivity.
Qed.

(** On a uniform grid value() succeeds for every non-empty range: the output has the
    length of r, is zero outside the range, and inside it is the cut of the function sampled
    on an extended uniform grid that contains every requested point exactly and whose step
    divides that of r and is at most dr_super; for r >= 0 no point other than the first
    requested one is 0 or negative.  The grid does not depend on the function. *)
Theorem C100_value_uniform :
  forall x0 d n rng a b, 0 < d -> (2 <= n)%nat ->
    match rng with None => a = 0%nat /\ b = n | Some p => p = (a, b) end -> (a < b <= n)%nat ->
    exists y0 k m, (0 < k)%nat /\ d / INR k <= dsuper /\ (forall j, (0 < j)%nat -> d / INR j <= dsuper -> (k <= j)%nat) /\
      (0 <= x0 -> forall x, In x (grid y0 (d / INR k) m) -> x = x0 + INR a * d \/ 0 < x) /\
      exists at_, (forall i, (a <= i < b)%nat -> nth_error (grid y0 (d / INR k) m) (at_ i) = nth_error (grid x0 d n) i) /\
      forall f, exists out, value qmax extension supersample true f (grid x0 d n) rng = Ok out /\ length out = n /\
        (forall i, (i < n)%nat -> (a <= i < b)%nat -> nth_error out i = nth_error (cut_freq qmax (map f (grid y0 (d / INR k) m)) (d / INR k)) (at_ i)) /\
        (forall i, (i < n)%nat -> ~ (a <= i < b)%nat -> nth_error out i = Some 0).
Proof.
  intros x0 d n rng a b HD HN HR AB. destruct (segs_spec d HD) as (S0 & SE & SL & SM).
  assert (K1 : 1 <= INR (segs d)) by (apply (le_INR 1); lia). assert (DK : 0 < d / INR (segs d)) by (apply Rdiv_lt_0_compat; lra).
  destruct (rippled_grid (x0 + INR a * d) (d / INR (segs d)) ((b - a - 1) * segs d + 1) DK ltac:(rewrite Nat.add_1_r; apply Nat.lt_0_succ)) as (nl & nr & RG).
  pose proof (value_grid x0 d n rng a b nl nr HD HN HR AB) as VG. cbv zeta in VG. specialize (VG (fun f => proj1 (RG f))).
  exists (x0 + INR a * d - INR nl * (d / INR (segs d))), (segs d), (nl + ((b - a - 1) * segs d + 1) + nr)%nat. split; [exact S0|]. split; [exact SL|]. split; [exact SM|]. split.
  { intros X. apply (RG (fun x => x)). pose proof (pos_INR a). nra. }
  exists (fun i => nl + (i - a) * segs d)%nat. split; [|exact VG].
  intros i Hi. rewrite !grid_nth by nia. f_equal. rewrite plus_INR, mult_INR, minus_INR by lia. field. lra.
Qed.

(** ** C101 *)
Lemma D_ext (f g : R -> R) x l : (forall t, f t = g t) -> derivable_pt_lim f x l -> derivable_pt_lim g x l.
Proof. intros E H eps He. destruct (H eps He) as (del & Hd). exists del. intros h H1 H2. rewrite <- !E. now apply Hd. Qed.
Lemma D_plus f g x l m : derivable_pt_lim f x l -> derivable_pt_lim g x m -> derivable_pt_lim (fun t => f t + g t) x (l + m).
Proof. apply derivable_pt_lim_plus. Qed.
Lemma D_scal a f x l : derivable_pt_lim f x l -> derivable_pt_lim (fun t => a * f t) x (a * l).
Proof. apply derivable_pt_lim_scal. Qed.
Lemma D_scal_r a f x l : derivable_pt_lim f x l -> derivable_pt_lim (fun t => f t * a) x (l * a).
Proof. intros H. rewrite Rmult_comm. apply (D_ext (fun t => a * f t)); [intros; ring|]. now apply D_scal. Qed.
Lemma D_const c x : derivable_pt_lim (fun _ => c) x 0.
Proof. apply derivable_pt_lim_const. Qed.
Lemma D_rsum n (f : nat -> R -> R) (l : nat -> R) x : (forall k, (k < n)%nat -> derivable_pt_lim (f k) x (l k)) -> derivable_pt_lim (fun t => rsum n (fun k => f k t)) x (rsum n l).
Proof. induction n as [|n IH]; intros H; cbn [Covariance.rsum]; [apply D_const|]. apply D_plus; [apply IH; auto with arith|apply H; lia]. Qed.

Lemma zre_deriv (S : R -> list R) (G : list R) d i t0 : (forall t, length (S t) = length G) ->
  (forall n, (n < length G)%nat -> derivable_pt_lim (fun t => nth n (S t) 0) t0 (nth n G 0)) ->
  derivable_pt_lim (fun t => zre qmax (S t) d i) t0 (zre qmax G d i).
Proof.
  intros HL H. set (N := padlen (length G)).
  apply (D_ext (fun t => / INR N * rsum N (fun k => maskR (gone qmax N d k)
    (rsum (length G) (fun n => nth n (S t) 0 * cos (angle N k n)) * cos (angle N k i) - - rsum (length G) (fun n => nth n (S t) 0 * sin (angle N k n)) * sin (angle N k i))))).
  { intros t. unfold zre. cbv zeta. rewrite HL. fold N. unfold re_of, im_of. rewrite HL. reflexivity. }
  unfold zre. cbv zeta. fold N. apply D_scal. apply D_rsum. intros k K. unfold maskR. destruct (gone qmax N d k); [apply D_const|].
  unfold re_of, im_of. apply (D_ext (fun t => rsum (length G) (fun n => nth n (S t) 0 * cos (angle N k n)) * cos (angle N k i) + rsum (length G) (fun n => nth n (S t) 0 * sin (angle N k n)) * sin (angle N k i))); [intros; ring|].
  match goal with |- derivable_pt_lim _ _ (?a - - ?b * ?c) => replace (a - - b * c) with (a + b * c) by ring end.
  apply D_plus; apply D_scal_r; apply D_rsum; intros n Hn; apply D_scal_r; now apply H.
Qed.

Lemma segs_1 d : 0 < d -> d <= dsuper -> segs d = 1%nat.
Proof. intros H1 H2. destruct (segs_spec d H1) as (S0 & _ & _ & SM). pose proof (SM 1%nat ltac:(lia)). cbn [INR] in H. unfold Rdiv in H. rewrite Rinv_1, Rmult_1_r in H. specialize (H H2). lia. Qed.

Lemma jac_all_ok r rpart a b dr js : (forall g, exists v, jac_part qmax extension r rpart a b dr g = Ok v) ->
  exists l, jac_all qmax extension r rpart a b dr js = Ok l /\ length l = length js /\
    (forall i, nth_error js i = Some None -> nth_error l i = Some None) /\
    (forall i g, nth_error js i = Some (Some g) -> exists v, jac_part qmax extension r rpart a b dr g = Ok v /\ nth_error l i = Some (Some v)).
Proof.
  intros H. induction js as [|[g|] js (l & E & L & N1 & N2)]; cbn [jac_all].
  - exists []. repeat split; auto; intros [|i]; discriminate.
  - destruct (H g) as (v & Hv). rewrite Hv. cbn [bind]. rewrite E. cbn [bind]. exists (Some v :: l). split; [reflexivity|]. split; [cbn; lia|]. split.
    + intros [|i] Hi; [discriminate|exact (N1 i Hi)].
    + intros [|i] g' Hi; [injection Hi as <-; exists v; auto|exact (N2 i g' Hi)].
  - rewrite E. cbn [bind]. exists (None :: l). split; [reflexivity|]. split; [cbn; lia|]. split.
    + intros [|i] Hi; [reflexivity|exact (N1 i Hi)].
    + intros [|i] g' Hi; [discriminate|exact (N2 i g' Hi)].
Qed.

(** The Jacobian of uniformly spaced points succeeds, has an entry for each parameter, and
    the entry for a free parameter is that parameter's curve, cut on the grid extended with
    the spacing of r itself. *)
Lemma jacobian_grid x0 d n rng a b : 0 < d -> (2 <= n)%nat ->
  match rng with None => a = 0%nat /\ b = n | Some p => p = (a, b) end -> (a < b <= n)%nat ->
  forall nl nr, (forall f, rippled qmax extension f (grid (x0 + INR a * d) d (b - a)) d = Ok (rslice (cut_freq qmax (map f (grid (x0 + INR a * d - INR nl * d) d (nl + (b - a) + nr))) d) nl (nl + (b - a)))) ->
  forall js, exists l, jacobian qmax extension supersample true js (grid x0 d n) rng = Ok l /\ length l = length js /\
    (forall i, nth_error js i = Some None -> nth_error l i = Some None) /\
    (forall i g, nth_error js i = Some (Some g) -> exists v, nth_error l i = Some (Some v) /\ length v = n /\
       (forall j, (j < n)%nat -> (a <= j < b)%nat -> nth_error v j = nth_error (cut_freq qmax (map g (grid (x0 + INR a * d - INR nl * d) d (nl + (b - a) + nr))) d) (nl + (j - a))) /\
       (forall j, (j < n)%nat -> ~ (a <= j < b)%nat -> nth_error v j = Some 0)).
Proof.
  intros HD HN HR AB nl nr RG js.
  unfold jacobian. cbn [negb]. assert (RR : match rng with None => (0%nat, length (grid x0 d n)) | Some p => p end = (a, b)).
  { destruct rng as [p|]; [exact HR|]. destruct HR as [-> ->]. now rewrite grid_length. }
  rewrite RR. rewrite grid_length. rewrite (proj2 (Nat.ltb_lt 1 n)) by lia. rewrite spacing_grid by exact HN.
  pose proof (rslice_grid x0 d n a b ltac:(lia)) as RS.
  assert (JP : forall g, exists v, jac_part qmax extension (grid x0 d n) (rslice (grid x0 d n) a b) a b d g = Ok v /\ length v = n /\
       (forall j, (j < n)%nat -> (a <= j < b)%nat -> nth_error v j = nth_error (cut_freq qmax (map g (grid (x0 + INR a * d - INR nl * d) d (nl + (b - a) + nr))) d) (nl + (j - a))) /\
       (forall j, (j < n)%nat -> ~ (a <= j < b)%nat -> nth_error v j = Some 0)).
  { intros g. unfold jac_part. rewrite RS. rewrite (RG g). cbn [bind]. rewrite grid_length.
    set (cut := cut_freq qmax _ _). assert (LC : length cut = (nl + (b - a) + nr)%nat) by (unfold cut; rewrite cut_freq_length, map_length, grid_length; reflexivity).
    destruct (place_ok n a b (rslice cut nl (nl + (b - a))) ltac:(rewrite rslice_length by lia; lia) ltac:(lia)) as (P1 & P2 & P3 & P4).
    eexists. split; [exact P1|]. split; [exact P2|]. split; [|exact P4]. intros j Hj G. rewrite P3 by assumption. apply rslice_nth. lia. }
  destruct (jac_all_ok (grid x0 d n) (rslice (grid x0 d n) a b) a b d js) as (l & E & L & N1 & N2). { intros g. destruct (JP g) as (v & Hv & _). now exists v. }
  assert (RL : length (rslice (grid x0 d n) a b) = (b - a)%nat) by (rewrite RS; apply grid_length).
  exists l. split; [destruct (rslice (grid x0 d n) a b); [cbn in RL; lia|exact E]|]. split; [exact L|]. split; [exact N1|].
  intros i g Hi. destruct (N2 i g Hi) as (v & Hv & Nv). destruct (JP g) as (v' & Hv' & R'). assert (v' = v) by congruence. subst v'. exists v. split; [exact Nv|exact R'].
Qed.

(** On a grid at least as fine as dr_super the Jacobian is the derivative of the value:
    if the curve [F t] depends on a parameter t with derivative [g] at t0 (at positive r,
    and at the first point), then every entry of the Jacobian for that parameter is the
    derivative of the corresponding value. *)
Theorem C101_jacobian_is_derivative :
  forall x0 d n rng a b, 0 < d -> d <= dsuper -> (2 <= n)%nat -> 0 <= x0 ->
    match rng with None => a = 0%nat /\ b = n | Some p => p = (a, b) end -> (a < b <= n)%nat ->
    forall js i g (F : R -> R -> R) t0, nth_error js i = Some (Some g) ->
      (forall x, x = x0 + INR a * d \/ 0 < x -> derivable_pt_lim (fun t => F t x) t0 (g x)) ->
      exists l jac out, jacobian qmax extension supersample true js (grid x0 d n) rng = Ok l /\ length l = length js /\
        nth_error l i = Some (Some jac) /\ length jac = n /\
        (forall t, value qmax extension supersample true (F t) (grid x0 d n) rng = Ok (out t) /\ length (out t) = n) /\
        forall j, (j < n)%nat -> derivable_pt_lim (fun t => nth j (out t) 0) t0 (nth j jac 0).
Proof.
  intros x0 d n rng a b HD HS HN HX HR AB js i g F t0 Hi HF.
  destruct (rippled_grid (x0 + INR a * d) d (b - a) HD ltac:(lia)) as (nl & nr & RG).
  destruct (jacobian_grid x0 d n rng a b HD HN HR AB nl nr (fun f => proj1 (RG f)) js) as (l & JE & JL & _ & JG). destruct (JG i g Hi) as (jac & N & L & JI & JO).
  pose proof (segs_1 d HD HS) as S1. pose proof (value_grid x0 d n rng a b nl nr HD HN HR AB) as VG. cbv zeta in VG. rewrite S1 in VG. cbn [INR] in VG.
  replace (d / 1) with d in VG by field. replace ((b - a - 1) * 1 + 1)%nat with (b - a)%nat in VG by lia. specialize (VG (fun f => proj1 (RG f))).
  set (ext := grid (x0 + INR a * d - INR nl * d) d (nl + (b - a) + nr)) in *.
  set (out := fun t => match value qmax extension supersample true (F t) (grid x0 d n) rng with Ok o => o | Err _ => [] end).
  assert (OUT : forall t, value qmax extension supersample true (F t) (grid x0 d n) rng = Ok (out t) /\ length (out t) = n /\
     (forall j, (j < n)%nat -> (a <= j < b)%nat -> nth_error (out t) j = nth_error (cut_freq qmax (map (F t) ext) d) (nl + (j - a) * 1)) /\
     (forall j, (j < n)%nat -> ~ (a <= j < b)%nat -> nth_error (out t) j = Some 0)).
  { intros t. destruct (VG (F t)) as (o & E & H). assert (EO : out t = o) by (unfold out; now rewrite E). rewrite EO. split; [exact E|exact H]. }
  exists l, jac, out. split; [exact JE|]. split; [exact JL|]. split; [exact N|]. split; [exact L|]. split; [intros t; destruct (OUT t) as (H1 & H2 & _); auto|].
  intros j Hj. assert (LE : length ext = (nl + (b - a) + nr)%nat) by apply grid_length.
  destruct (Nat.le_gt_cases a j) as [A1|A1]; [destruct (Nat.lt_ge_cases j b) as [A2|A2]|].
  - set (p := (nl + (j - a))%nat). assert (PE : (p < length ext)%nat) by (unfold p; lia).
    assert (NJ : nth j jac 0 = zre qmax (map g ext) d p).
    { apply nth_error_nth. rewrite JI by lia. apply cut_freq_nth. rewrite map_length. exact PE. }
    rewrite NJ. apply (D_ext (fun t => zre qmax (map (F t) ext) d p)).
    { intros t. symmetry. apply nth_error_nth. destruct (OUT t) as (_ & _ & H & _). rewrite H by lia. rewrite Nat.mul_1_r. apply cut_freq_nth. rewrite map_length. exact PE. }
    apply zre_deriv; [intros t; now rewrite !map_length|]. rewrite map_length. intros m Hm.
    destruct (nth_error ext m) as [x|] eqn:Ex; [|apply nth_error_None in Ex; lia].
    rewrite (nth_error_nth (map g ext) m 0 (x := g x)) by (rewrite nth_error_map, Ex; reflexivity).
    apply (D_ext (fun t => F t x)); [intros t; symmetry; apply nth_error_nth; rewrite nth_error_map, Ex; reflexivity|].
    apply HF. apply (RG (fun x => x)); [pose proof (pos_INR a); nra|]. eapply nth_error_In. exact Ex.
  - rewrite (nth_error_nth jac j 0 (JO j Hj ltac:(lia))). apply (D_ext (fun _ => 0)); [|apply D_const].
    intros t. symmetry. apply nth_error_nth. destruct (OUT t) as (_ & _ & _ & H). apply H; lia.
  - rewrite (nth_error_nth jac j 0 (JO j Hj ltac:(lia))). apply (D_ext (fun _ => 0)); [|apply D_const].
    intros t. symmetry. apply nth_error_nth. destruct (OUT t) as (_ & _ & _ & H). apply H; lia.
Qed.

(** In particular for GaussianOverR peaks (C24), on positive r. *)
Definition gor_curve (W : R) (p : PeakFuncs.pars3) (x : R) : R := match PeakFuncs.gor_value W p x with Some v => v | None => 0 end.
Definition gor_slope (W : R) (p : PeakFuncs.pars3) (free : bool * bool * bool) (i : nat) (x : R) : R :=
  match PeakFuncs.gor_jacobian W p x free with Some l => match nth i l None with Some v => v | None => 0 end | None => 0 end.
Theorem C101_gaussianoverr :
  forall W p free x0 d n rng a b, 0 < W -> PeakFuncs.degenerate p = false -> PeakFuncs.p_area p <> 0 ->
    0 < d -> d <= dsuper -> (2 <= n)%nat -> 0 < x0 ->
    match rng with None => a = 0%nat /\ b = n | Some q => q = (a, b) end -> (a < b <= n)%nat ->
    let js := map (fun i => if PeakDerivProps.is_free i free then Some (gor_slope W p free i) else None) [0; 1; 2]%nat in
    exists l, jacobian qmax extension supersample true js (grid x0 d n) rng = Ok l /\ length l = 3%nat /\
      forall i, (i < 3)%nat -> PeakDerivProps.is_free i free = true ->
        exists jac out, nth_error l i = Some (Some jac) /\ length jac = n /\
          (forall t, value qmax extension supersample true (gor_curve W (PeakDerivProps.with_par i p t)) (grid x0 d n) rng = Ok (out t) /\ length (out t) = n) /\
          forall j, (j < n)%nat -> derivable_pt_lim (fun t => nth j (out t) 0) (PeakDerivProps.get_par i p) (nth j jac 0).
Proof.
  intros W p free x0 d n rng a b HW HDg HA HD HS HN HX HR AB js.
  destruct (rippled_grid (x0 + INR a * d) d (b - a) HD ltac:(lia)) as (nl & nr & RG).
  destruct (jacobian_grid x0 d n rng a b HD HN HR AB nl nr (fun f => proj1 (RG f)) js) as (l & JE & JL & _ & _).
  exists l. split; [exact JE|]. split; [exact JL|]. intros i Hi Hf.
  assert (NJ : nth_error js i = Some (Some (gor_slope W p free i))).
  { unfold js. rewrite nth_error_map. replace (nth_error [0; 1; 2]%nat i) with (Some i) by (destruct i as [|[|[|i]]]; [reflexivity|reflexivity|reflexivity|lia]). cbn [option_map]. now rewrite Hf. }
  destruct (C101_jacobian_is_derivative x0 d n rng a b HD HS HN ltac:(lra) HR AB js i _ (fun t => gor_curve W (PeakDerivProps.with_par i p t)) (PeakDerivProps.get_par i p) NJ) as (l' & jac & out & E & _ & N & L & O & Dv).
  { intros x Hx. assert (XP : 0 < x) by (destruct Hx as [->|Hx]; [pose proof (pos_INR a); nra|exact Hx]).
    destruct (PeakDerivProps.C24_gaussianoverr_jacobian W p x free HW HDg ltac:(lra) HA) as (jc & EJ & (_ & CJ)).
    destruct (CJ i Hi) as (_ & CF). destruct (CF Hf) as (dv & ND & (h & eps & He & Heq & Hder)).
    replace (gor_slope W p free i x) with dv by (unfold gor_slope; rewrite EJ; now rewrite (nth_error_nth jc i None ND)).
    intros e Hpos. destruct (Hder e Hpos) as (del & Hd). assert (MP : 0 < Rmin del eps) by (apply Rmin_pos; [apply cond_pos|exact He]).
    exists (mkposreal _ MP). intros u Hu1 Hu2. cbn [pos] in Hu2. specialize (Hd u Hu1). pose proof (Rmin_l del eps). pose proof (Rmin_r del eps).
    unfold gor_curve. rewrite (Heq (PeakDerivProps.get_par i p + u)) by (replace (PeakDerivProps.get_par i p + u - PeakDerivProps.get_par i p) with u by ring; lra).
    rewrite (Heq (PeakDerivProps.get_par i p)) by (rewrite Rminus_diag_eq by reflexivity; rewrite Rabs_R0; exact He). apply Hd. lra. }
  assert (l' = l) by congruence. subst l'. exists jac, out. auto.
Qed.

(** ** C102 *)
(** On a grid coarser than dr_super value() subdivides the grid but jacobian() does not.
    Whatever the settings (supersample at least 4; the default is 5) and whatever the grid,
    there is a curve, with amplitude t, for which the Jacobian in t is zero everywhere while
    the value depends on t. *)
Lemma zre_delta N0 d l p : (l < N0)%nat -> let s := map (fun i => if (i =? p)%nat then 1 else 0) (seq 0 N0) in (p < N0)%nat ->
  zre qmax s d l = / INR (padlen N0) * rsum (padlen N0) (fun k => maskR (gone qmax (padlen N0) d k) (cos (angle (padlen N0) k l - angle (padlen N0) k p))).
Proof.
  intros HL s HP. assert (LS : length s = N0) by (unfold s; now rewrite map_length, seq_length).
  unfold zre. rewrite LS. cbv zeta. f_equal. apply rsum_ext. intros k K. f_equal.
  assert (NT : forall n, (n < N0)%nat -> nth n s 0 = if (n =? p)%nat then 1 else 0) by (intros n Hn; unfold s; now rewrite map_seq_nth).
  unfold re_of, im_of. rewrite LS.
  rewrite (rsum_one N0 p), (rsum_one N0 p); try assumption.
  - rewrite NT, Nat.eqb_refl by exact HP. rewrite cos_minus. ring.
  - intros n Hn NE. rewrite NT by exact Hn. rewrite (proj2 (Nat.eqb_neq n p) NE). ring.
  - intros n Hn NE. rewrite NT by exact Hn. rewrite (proj2 (Nat.eqb_neq n p) NE). ring.
Qed.
Lemma rsum_nonneg n f : (forall k, (k < n)%nat -> 0 <= f k) -> 0 <= rsum n f.
Proof. induction n as [|n IH]; intros H; cbn [Covariance.rsum]; [lra|]. pose proof (H n ltac:(lia)). specialize (IH ltac:(auto with arith)). lra. Qed.

Lemma neighbour_positive N0 d l : 4 <= supersample -> 0 < d -> d <= dsuper -> (S l < N0)%nat ->
  0 < zre qmax (map (fun i => if (i =? S l)%nat then 1 else 0) (seq 0 N0)) d l.
Proof.
  intros H4 HD HS HL. rewrite zre_delta by lia. set (N := padlen N0). assert (N2 : (N0 <= N)%nat) by apply padlen_ge.
  assert (NN : 2 <= INR N) by (apply (le_INR 2); lia). pose proof PI_RGT_0 as PP.
  apply Rmult_lt_0_compat; [apply Rinv_0_lt_compat; lra|].
  destruct N as [|N'] eqn:EN; [lia|]. rewrite <- EN in *. rewrite EN at 1. rewrite (rsum_split 1 N' _ : rsum (S N') _ = _). cbn [Covariance.rsum].
  assert (ANG : forall k, angle N k l - angle N k (S l) = - (2 * PI * INR k / INR N)) by (intros k; unfold angle; rewrite S_INR; field; lra).
  assert (KEEP : forall k, (k < N)%nat -> gone qmax N d k = false -> 4 * INR (Nat.min k (N - k)) < INR N).
  { intros k K G. apply (gone_spec qmax Q) in G; [|lia|exact HD|exact K]. set (m := INR (Nat.min k (N - k))) in *.
    assert (M0 : 0 <= m) by apply pos_INR. unfold dr_super in HS.
    assert (D1 : d * (supersample * qmax) <= 2 * PI).
    { apply (Rmult_le_compat_r (supersample * qmax)) in HS; [|left; now apply Rmult_lt_0_compat]. replace (2 * PI / (supersample * qmax) * (supersample * qmax)) with (2 * PI) in HS by (field; split; lra). exact HS. }
    apply (Rmult_lt_compat_r (INR N * d)) in G; [|apply Rmult_lt_0_compat; lra].
    replace (2 * PI * m / (INR N * d) * (INR N * d)) with (2 * PI * m) in G by (field; split; lra).
    replace (qmax * (INR N - 1) / INR N * (INR N * d)) with (qmax * (INR N - 1) * d) in G by (field; lra).
    assert (D2 : 4 * (d * qmax) <= 2 * PI). { assert (0 < d * qmax) by (now apply Rmult_lt_0_compat). nra. }
    nra. }
  assert (POS : forall k, (k < N)%nat -> 0 <= maskR (gone qmax N d k) (cos (angle N k l - angle N k (S l)))).
  { intros k K. unfold maskR. destruct (gone qmax N d k) eqn:G; [lra|]. specialize (KEEP k K G). rewrite ANG, cos_neg.
    assert (CS : forall j, 4 * INR j < INR N -> 0 <= cos (2 * PI * INR j / INR N)).
    { intros j Hj. left. pose proof (pos_INR j). assert (J2 : 2 * PI * INR j / INR N < PI / 2).
      { apply (Rmult_lt_reg_r (INR N)); [lra|]. replace (2 * PI * INR j / INR N * INR N) with (2 * PI * INR j) by (field; lra). nra. }
      assert (J1 : 0 <= 2 * PI * INR j / INR N). { apply Rmult_le_pos; [nra|left; apply Rinv_0_lt_compat; lra]. }
      apply cos_gt_0; lra. }
    destruct (Nat.le_ge_cases k (N - k)) as [L|L]; [rewrite Nat.min_l in KEEP by exact L; now apply CS|].
    rewrite Nat.min_r in KEEP by exact L. replace (2 * PI * INR k / INR N) with (2 * INR 1 * PI - 2 * PI * INR (N - k) / INR N) by (rewrite minus_INR by lia; cbn [INR]; field; lra).
    rewrite cos_minus, cos_2kPI, sin_2kPI. specialize (CS (N - k)%nat KEEP). lra. }
  assert (G0 : gone qmax N d 0 = false).
  { apply (gone_spec qmax Q); [lia|exact HD|lia|]. cbn [Nat.min INR]. replace (2 * PI * 0 / (INR N * d)) with 0 by (field; split; lra).
    apply Rdiv_lt_0_compat; [apply Rmult_lt_0_compat|]; lra. }
  rewrite G0. unfold maskR at 1. rewrite ANG. cbn [INR]. replace (- (2 * PI * 0 / INR N)) with 0 by (field; lra). rewrite cos_0.
  assert (0 <= rsum N' (fun k => maskR (gone qmax N d (1 + k)) (cos (angle N (1 + k) l - angle N (1 + k) (S l))))) by (apply rsum_nonneg; intros k K; apply POS; lia). lra.
Qed.

Lemma zre_zeros s d i : (forall n, (n < length s)%nat -> nth n s 0 = 0) -> zre qmax s d i = 0.
Proof.
  intros H. unfold zre. cbv zeta. rewrite rsum_zero; [ring|]. intros k _. unfold re_of, im_of.
  rewrite !rsum_zero by (intros n Hn; rewrite H by exact Hn; ring). unfold maskR. destruct (gone _ _ _ _); ring.
Qed.

Theorem C102_coarse_jacobian_refuted :
  4 <= supersample ->
  forall x0 d n, dsuper < d -> (2 <= n)%nat ->
    exists (g : R -> R) jac out c,
      jacobian qmax extension supersample true [Some g] (grid x0 d n) None = Ok [Some jac] /\ nth_error jac 0 = Some 0 /\
      (forall t, value qmax extension supersample true (fun x => t * g x) (grid x0 d n) None = Ok (out t)) /\
      (forall t, nth_error (out t) 0 = Some (t * c)) /\ c <> 0.
Proof.
  intros H4 x0 d n HC HN. pose proof dsuper_pos as DP. assert (HD : 0 < d) by lra.
  destruct (segs_spec d HD) as (S0 & SE & SL & SM). set (k := segs d) in *.
  assert (K2 : (2 <= k)%nat). { destruct k as [|[|k']]; [lia| |lia]. cbn [INR] in SL. unfold Rdiv in SL. rewrite Rinv_1 in SL. lra. }
  assert (KR : 2 <= INR k) by (apply (le_INR 2); exact K2). set (e := d / INR k) in *. assert (HE : 0 < e) by (apply Rdiv_lt_0_compat; lra).
  assert (DE : d = INR k * e) by (unfold e; field; lra).
  set (g := fun x => if Req_EM_T x (x0 + e) then 1 else 0).
  assert (A0 : (0 < n <= n)%nat) by lia.
  (* the Jacobian *)
  destruct (rippled_grid (x0 + INR 0 * d) d (n - 0) HD ltac:(lia)) as (nl & nr & RG).
  destruct (jacobian_grid x0 d n None 0 n HD HN (conj eq_refl eq_refl) A0 nl nr (fun f => proj1 (RG f)) [Some g]) as (l & JE & JL & _ & JG).
  destruct (JG 0%nat g eq_refl) as (jac & N & L & JI & _).
  assert (EL : l = [Some jac]). { destruct l as [|x [|y l]]; [discriminate| |cbn in JL; lia]. injection N as ->. reflexivity. } subst l.
  (* the value *)
  set (mf := ((n - 0 - 1) * k + 1)%nat). assert (MF : (2 <= mf)%nat) by (unfold mf; nia).
  destruct (rippled_grid (x0 + INR 0 * d) e mf HE ltac:(lia)) as (vl & vr & VR).
  pose proof (value_grid x0 d n None 0 n vl vr HD HN (conj eq_refl eq_refl) A0) as VG. cbv zeta in VG. fold k in VG. fold e mf in VG. specialize (VG (fun f => proj1 (VR f))).
  set (ext := grid (x0 + INR 0 * d - INR vl * e) e (vl + mf + vr)) in *.
  assert (EG : map g ext = map (fun i => if (i =? S vl)%nat then 1 else 0) (seq 0 (vl + mf + vr))).
  { unfold ext, grid. rewrite map_map. apply map_ext. intros i. unfold g. cbn [INR].
    destruct (Req_EM_T (x0 + 0 * d - INR vl * e + INR i * e) (x0 + e)) as [E|E]; destruct (Nat.eqb_spec i (S vl)) as [Ei|Ei]; try reflexivity; exfalso.
    - apply Ei. apply INR_eq. rewrite S_INR. apply (Rmult_eq_reg_r e); [lra|lra].
    - apply E. rewrite Ei, S_INR. ring. }
  set (c := zre qmax (map g ext) e vl).
  assert (CP : 0 < c). { unfold c. rewrite EG. apply neighbour_positive; [exact H4|exact HE|exact SL|lia]. }
  set (out := fun t => match value qmax extension supersample true (fun x => t * g x) (grid x0 d n) None with Ok o => o | Err _ => [] end).
  exists g, jac, out, c. split; [exact JE|]. split.
  { rewrite JI by lia. rewrite cut_freq_nth by (rewrite map_length, grid_length; lia). f_equal. apply zre_zeros. rewrite map_length, grid_length. intros i Hi.
    apply nth_error_nth. rewrite nth_error_map, grid_nth by exact Hi. cbn [option_map]. f_equal. unfold g. cbn [INR].
    destruct (Req_EM_T (x0 + 0 * d - INR nl * d + INR i * d) (x0 + e)) as [E|E]; [exfalso|reflexivity].
    assert (E2 : (INR i - INR nl) * INR k = 1). { apply (Rmult_eq_reg_r e); [|lra]. rewrite DE in E. lra. }
    rewrite !INR_IZR_INZ in E2. rewrite <- minus_IZR, <- mult_IZR in E2. apply eq_IZR in E2. rewrite Z.mul_comm in E2. apply Z.mul_eq_1 in E2. lia. }
  assert (OUT : forall t, value qmax extension supersample true (fun x => t * g x) (grid x0 d n) None = Ok (out t) /\ nth_error (out t) 0 = Some (t * c)).
  { intros t. destruct (VG (fun x => t * g x)) as (o & E & _ & H & _). assert (EO : out t = o) by (unfold out; now rewrite E). rewrite EO. split; [exact E|].
    rewrite H by lia. cbn [Nat.sub Nat.mul]. rewrite Nat.add_0_r. rewrite cut_freq_nth by (unfold ext; rewrite map_length, grid_length; lia). f_equal. unfold c.
    transitivity (t * zre qmax (map g ext) e vl + 0 * zre qmax (map g ext) e vl); [|ring].
    rewrite <- zre_lin by reflexivity. f_equal. clear. induction ext as [|x r IH]; [reflexivity|]. cbn [map combine fst snd]. f_equal; [ring|exact IH]. }
  split; [intros t; apply OUT|]. split; [intros t; apply OUT|]. lra.
Qed.

(** A single point: as an array, value() raises ValueError although jacobian() works; as a
    number, value() works and jacobian() always raises UnboundLocalError. *)
Theorem C102_single_point_refuted :
  forall f x js, value qmax extension supersample true f [x] None = Err ValueError /\
    (exists l, jacobian qmax extension supersample true js [x] None = Ok l) /\
    (exists v, value_scalar qmax extension supersample true f x = Ok v) /\
    jacobian_scalar true js x = Err UnboundLocalError.
Proof.
  intros f x js. pose proof dsuper_pos as DP. split; [reflexivity|].
  destruct (rippled_grid x dsuper 1 DP ltac:(lia)) as (nl & nr & RG). rewrite grid_1 in RG.
  assert (RL : forall g, exists v, rippled qmax extension g [x] dsuper = Ok [v]).
  { intros g. destruct (RG g) as [E _]. rewrite E. set (c := cut_freq _ _ _).
    assert (L : length (rslice c nl (nl + 1)) = 1%nat) by (rewrite rslice_length; [lia|unfold c; rewrite cut_freq_length, map_length, grid_length; lia]).
    destruct (rslice c nl (nl + 1)) as [|v [|v' r]]; [discriminate|now exists v|discriminate]. }
  split; [|split; [|reflexivity]].
  - unfold jacobian. cbn [negb length]. cbn [Nat.ltb Nat.leb]. unfold rslice. cbn [Nat.sub skipn firstn].
    destruct (jac_all_ok [x] [x] 0 1 dsuper js) as (l & E & _); [|exists l; exact E].
    intros g. unfold jac_part. destruct (RL g) as (v & Ev). rewrite Ev. cbn [bind]. eexists. reflexivity.
  - unfold value_scalar. cbn [negb]. destruct (RL f) as (v & Ev). rewrite Ev. cbn [bind]. now exists v.
Qed.
End Props.

Print Assumptions C98_extended_grid.
Print Assumptions C98_empty_grid.
Print Assumptions C99_length.
Print Assumptions C99_linear.
Print Assumptions C99_real.
Print Assumptions C99_spectrum.
Print Assumptions C99_band_limited_unchanged.
Print Assumptions C99_idempotent.
Print Assumptions C100_value_uniform.
Print Assumptions C101_jacobian_is_derivative.
Print Assumptions C101_gaussianoverr.
Print Assumptions C102_coarse_jacobian_refuted.
Print Assumptions C102_single_point_refuted.

(** ** The hypotheses are satisfiable *)
Example C101_nonvacuous : 0 < dr_super 20 5 /\ 0 < 0.01 /\ 0.01 <= dr_super 20 5 /\ dr_super 20 5 < 0.16 /\ (4 <= 5) /\ PeakFuncs.degenerate (PeakFuncs.P3 3 0 2) = false.
Proof.
  pose proof PI_4. assert (3 < PI) by (pose proof PI2_3_2; lra). unfold dr_super. repeat split; try lra.
  apply PeakDerivProps.C24_nonvacuous.
Qed.
(** With four samples at distance 1 and qmax 3 the cut keeps component 1 and removes component 2. *)
Example C99_cutoff_between : frequency 4 1 1 < 3 * (INR 4 - 1) / INR 4 /\ 3 * (INR 4 - 1) / INR 4 <= frequency 4 1 2 /\ length [0; 1; 0; 5] = (2 ^ 2)%nat.
Proof. pose proof PI_4. assert (3 < PI) by (pose proof PI2_3_2; lra). unfold frequency. cbn. split; [lra|split; [lra|reflexivity]]. Qed.

(** Lemmas about the Fourier sums and the grids of Ripples.v. *)
From Coq Require Import Reals Lra Psatz.
From Verif Require Import Prelude CovarianceProofs Ripples.
Open Scope R_scope.

(** ** ceil and arange *)
Lemma ceilZ_spec x : x <= IZR (ceilZ x) < x + 1.
Proof. unfold ceilZ. rewrite opp_IZR. destruct (base_Int_part (- x)) as [H1 H2]. lra. Qed.
Lemma ceilZ_unique x z : x <= IZR z < x + 1 -> ceilZ x = z.
Proof.
  intros H. pose proof (ceilZ_spec x) as C. apply Z.le_antisymm; apply Z.lt_succ_r; apply lt_IZR; rewrite succ_IZR; lra.
Qed.
Lemma ceilZ_lt x z : (z < ceilZ x)%Z <-> IZR z < x.
Proof.
  pose proof (ceilZ_spec x) as C. split; intros H.
  - assert (IZR z + 1 <= IZR (ceilZ x)) by (rewrite <- plus_IZR; apply IZR_le; lia). lra.
  - apply lt_IZR. lra.
Qed.
Lemma ceilZ_nat_lt x n : (n < Z.to_nat (ceilZ x))%nat <-> INR n < x.
Proof.
  rewrite INR_IZR_INZ, <- ceilZ_lt. lia.
Qed.
Lemma arange_length a b s : length (arange a b s) = Z.to_nat (ceilZ ((b - a) / s)).
Proof. unfold arange. now rewrite map_length, seq_length. Qed.
Lemma arange_nth a b s i : (i < length (arange a b s))%nat -> nth_error (arange a b s) i = Some (a + INR i * s).
Proof.
  rewrite arange_length. intros H. unfold arange. rewrite nth_error_map.
  rewrite (nth_error_nth' _ 0%nat) by (rewrite seq_length; exact H). rewrite seq_nth by exact H. reflexivity.
Qed.
(** The points of arange upwards are those before b, and downwards those after b. *)
Lemma arange_up a b s i : 0 < s -> ((i < length (arange a b s))%nat <-> a + INR i * s < b).
Proof.
  intros Hs. rewrite arange_length, ceilZ_nat_lt. split; intros H.
  - apply (Rmult_lt_compat_r s) in H; [|exact Hs]. replace ((b - a) / s * s) with (b - a) in H by (field; lra). lra.
  - apply (Rmult_lt_reg_r s); [exact Hs|]. replace ((b - a) / s * s) with (b - a) by (field; lra). lra.
Qed.
Lemma arange_down a b s i : 0 < s -> ((i < length (arange a b (- s)))%nat <-> b < a - INR i * s).
Proof.
  intros Hs. rewrite arange_length, ceilZ_nat_lt. replace ((b - a) / - s) with ((a - b) / s) by (field; lra). split; intros H.
  - apply (Rmult_lt_compat_r s) in H; [|exact Hs]. replace ((a - b) / s * s) with (a - b) in H by (field; lra). lra.
  - apply (Rmult_lt_reg_r s); [exact Hs|]. replace ((a - b) / s * s) with (a - b) by (field; lra). lra.
Qed.

(** ** Sums of cosines *)
Lemma cos_sum_telescope t N : 2 * sin (t / 2) * rsum N (fun n => cos (INR n * t)) = sin ((INR N - / 2) * t) + sin (t / 2).
Proof.
  induction N as [|N IH]; cbn [Covariance.rsum].
  - cbn [INR]. replace ((0 - / 2) * t) with (- (t / 2)) by field. rewrite sin_neg. ring.
  - rewrite Rmult_plus_distr_l, IH, S_INR.
    replace ((INR N + 1 - / 2) * t) with (INR N * t + t / 2) by field.
    replace ((INR N - / 2) * t) with (INR N * t - t / 2) by field.
    rewrite sin_plus, sin_minus. ring.
Qed.
Lemma sin_sum_telescope t N : 2 * sin (t / 2) * rsum N (fun n => sin (INR n * t)) = cos (t / 2) - cos ((INR N - / 2) * t).
Proof.
  induction N as [|N IH]; cbn [Covariance.rsum].
  - cbn [INR]. replace ((0 - / 2) * t) with (- (t / 2)) by field. rewrite cos_neg. ring.
  - rewrite Rmult_plus_distr_l, IH, S_INR.
    replace ((INR N + 1 - / 2) * t) with (INR N * t + t / 2) by field.
    replace ((INR N - / 2) * t) with (INR N * t - t / 2) by field.
    rewrite cos_plus, cos_minus. ring.
Qed.
Lemma cos_2kPI k : cos (2 * INR k * PI) = 1.
Proof. replace (2 * INR k * PI) with (0 + 2 * INR k * PI) by ring. rewrite cos_period. apply cos_0. Qed.
Lemma sin_2kPI k : sin (2 * INR k * PI) = 0.
Proof. replace (2 * INR k * PI) with (0 + 2 * INR k * PI) by ring. rewrite sin_period. apply sin_0. Qed.

(** The sum over n of cos (or sin) of 2 pi j n / N, 0 <= j < N. *)
Lemma cos_orth N j : (0 < j < N)%nat -> rsum N (fun n => cos (INR n * (2 * PI * INR j / INR N))) = 0.
Proof.
  intros [J1 J2]. set (t := 2 * PI * INR j / INR N).
  assert (NN : 0 < INR N) by (apply lt_0_INR; lia). assert (JJ : 0 < INR j) by (apply lt_0_INR; lia).
  assert (JN : INR j < INR N) by (now apply lt_INR).
  assert (S : 0 < sin (t / 2)).
  { pose proof PI_RGT_0. apply sin_gt_0; unfold t.
    - apply Rdiv_lt_0_compat; [|lra]. apply Rdiv_lt_0_compat; [|lra]. apply Rmult_lt_0_compat; lra.
    - apply (Rmult_lt_reg_r (INR N)); [lra|]. replace (2 * PI * INR j / INR N / 2 * INR N) with (PI * INR j) by (field; lra). apply Rmult_lt_compat_l; lra. }
  pose proof (cos_sum_telescope t N) as C.
  replace ((INR N - / 2) * t) with (- (t / 2) + 2 * INR j * PI) in C by (unfold t; field; lra).
  rewrite sin_period, sin_neg in C. replace (- sin (t / 2) + sin (t / 2)) with 0 in C by ring.
  apply Rmult_integral in C as [C|C]; [lra|exact C].
Qed.
Lemma sin_orth N j : (j < N)%nat -> rsum N (fun n => sin (INR n * (2 * PI * INR j / INR N))) = 0.
Proof.
  intros J2. assert (NN : 0 < INR N) by (apply lt_0_INR; lia).
  destruct j as [|j].
  { apply rsum_zero. intros n _. cbn [INR]. replace (INR n * (2 * PI * 0 / INR N)) with 0 by (field; lra). apply sin_0. }
  set (J := S j) in *. assert (JJ : 0 < INR J) by (apply lt_0_INR; unfold J; lia). assert (JN : INR J < INR N) by (now apply lt_INR).
  set (t := 2 * PI * INR J / INR N).
  assert (SP : 0 < sin (t / 2)).
  { pose proof PI_RGT_0. apply sin_gt_0; unfold t.
    - apply Rdiv_lt_0_compat; [|lra]. apply Rdiv_lt_0_compat; [|lra]. apply Rmult_lt_0_compat; lra.
    - apply (Rmult_lt_reg_r (INR N)); [lra|]. replace (2 * PI * INR J / INR N / 2 * INR N) with (PI * INR J) by (field; lra). apply Rmult_lt_compat_l; lra. }
  pose proof (sin_sum_telescope t N) as C.
  replace ((INR N - / 2) * t) with (- (t / 2) + 2 * INR J * PI) in C by (unfold t; field; lra).
  rewrite cos_period, cos_neg in C. replace (cos (t / 2) - cos (t / 2)) with 0 in C by ring.
  apply Rmult_integral in C as [C|C]; [lra|exact C].
Qed.

Lemma rsum_const N c : rsum N (fun _ => c) = INR N * c.
Proof. induction N as [|N IH]; cbn [Covariance.rsum]; [cbn; ring|]. rewrite IH, S_INR. ring. Qed.
Lemma rsum_opp N f : rsum N (fun n => - f n) = - rsum N f.
Proof. rewrite (rsum_ext N _ (fun n => (-1) * f n)) by (intros; ring). rewrite rsum_scal. ring. Qed.
Lemma rsum_minus N f g : rsum N (fun n => f n - g n) = rsum N f - rsum N g.
Proof. rewrite (rsum_ext N _ (fun n => f n + - g n)) by (intros; ring). rewrite rsum_plus, rsum_opp. ring. Qed.

(** Orthogonality in the form used below: a difference or a sum of two indices. *)
Lemma cos_orth_diff N k l : (k < N)%nat -> (l < N)%nat ->
  rsum N (fun n => cos (angle N k n - angle N l n)) = if (k =? l)%nat then INR N else 0.
Proof.
  intros K L. assert (NN : 0 < INR N) by (apply lt_0_INR; lia).
  destruct (Nat.eqb_spec k l) as [->|NE].
  - rewrite (rsum_ext N _ (fun _ => 1)); [rewrite rsum_const; ring|]. intros n _. rewrite Rminus_diag_eq by reflexivity. apply cos_0.
  - destruct (Nat.lt_ge_cases l k) as [G|G].
    + rewrite (rsum_ext N _ (fun n => cos (INR n * (2 * PI * INR (k - l) / INR N)))); [apply cos_orth; lia|].
      intros n _. f_equal. unfold angle. rewrite minus_INR by lia. field. lra.
    + rewrite (rsum_ext N _ (fun n => cos (INR n * (2 * PI * INR (l - k) / INR N)))); [apply cos_orth; lia|].
      intros n _. rewrite <- cos_neg. f_equal. unfold angle. rewrite minus_INR by lia. field. lra.
Qed.
Lemma sin_orth_diff N k l : (k < N)%nat -> (l < N)%nat -> rsum N (fun n => sin (angle N k n - angle N l n)) = 0.
Proof.
  intros K L. assert (NN : 0 < INR N) by (apply lt_0_INR; lia).
  destruct (Nat.le_ge_cases l k) as [G|G].
  - rewrite (rsum_ext N _ (fun n => sin (INR n * (2 * PI * INR (k - l) / INR N)))); [apply sin_orth; lia|].
    intros n _. f_equal. unfold angle. rewrite minus_INR by lia. field. lra.
  - rewrite (rsum_ext N _ (fun n => - sin (INR n * (2 * PI * INR (l - k) / INR N)))); [rewrite rsum_opp, sin_orth by lia; ring|].
    intros n _. rewrite <- sin_neg. f_equal. unfold angle. rewrite minus_INR by lia. field. lra.
Qed.

(** ** cut_freq as a sum *)
Definition maskR (b : bool) (x : R) : R := if b then 0 else x.
Lemma seq_nth_error a n i : (i < n)%nat -> nth_error (seq a n) i = Some (a + i)%nat.
Proof. intros H. rewrite (nth_error_nth' _ 0%nat) by (rewrite seq_length; exact H). now rewrite seq_nth. Qed.
Lemma map_seq_nth {A} (f : nat -> A) n i d : (i < n)%nat -> nth i (map f (seq 0 n)) d = f i.
Proof. intros H. apply nth_error_nth. rewrite nth_error_map, seq_nth_error by exact H. reflexivity. Qed.
Lemma map_seq_nth_error {A} (f : nat -> A) n i : (i < n)%nat -> nth_error (map f (seq 0 n)) i = Some (f i).
Proof. intros H. rewrite nth_error_map, seq_nth_error by exact H. reflexivity. Qed.

Lemma padlen_ge n : (n <= padlen n)%nat.
Proof.
  unfold padlen. destruct n as [|n]; [cbn; lia|]. apply Nat.log2_log2_up_spec. lia.
Qed.
Lemma padlen_pos n : (0 < padlen n)%nat.
Proof. unfold padlen. apply Nat.neq_0_lt_0. apply Nat.pow_nonzero. lia. Qed.

Section Cut.
Variables (q : R).
Hypothesis Q : 0 < q.

Definition gone (N : nat) (d : R) (k : nat) : bool :=
  let lo := low_index q N d in zeroed N lo (Z.of_nat N + 1 - lo)%Z k.
Definition re_of (s : list R) N k := rsum (length s) (fun n => nth n s 0 * cos (angle N k n)).
Definition im_of (s : list R) N k := - rsum (length s) (fun n => nth n s 0 * sin (angle N k n)).
Definition zre (s : list R) (d : R) (i : nat) : R :=
  let N := padlen (length s) in / INR N * rsum N (fun k => maskR (gone N d k) (re_of s N k * cos (angle N k i) - im_of s N k * sin (angle N k i))).
Definition zim (s : list R) (d : R) (i : nat) : R :=
  let N := padlen (length s) in / INR N * rsum N (fun k => maskR (gone N d k) (re_of s N k * sin (angle N k i) + im_of s N k * cos (angle N k i))).

Lemma cut_complex_length s d : length (cut_complex q s d) = padlen (length s).
Proof. unfold cut_complex, ifft, zero_slice, fft. cbv zeta. now rewrite !map_length, !seq_length. Qed.
Lemma cut_complex_nth s d i : (i < padlen (length s))%nat -> nth_error (cut_complex q s d) i = Some (zre s d i, zim s d i).
Proof.
  intros H. unfold cut_complex. cbv zeta. set (N := padlen (length s)) in *. set (lo := low_index q N d).
  assert (LF : length (fft s N) = N) by (unfold fft; now rewrite map_length, seq_length).
  unfold ifft, zero_slice. rewrite map_length, seq_length, LF.
  rewrite map_seq_nth_error by exact H. unfold zre, zim. fold N. f_equal. f_equal; f_equal; apply rsum_ext; intros k K;
    rewrite map_seq_nth by exact K; unfold gone; fold lo; cbv zeta; unfold maskR; fold lo; destruct (zeroed N lo _ k); cbn [fst snd]; try ring;
    unfold fft; rewrite map_seq_nth by exact K; cbn [fst snd]; unfold re_of, im_of; reflexivity.
Qed.
Lemma cut_freq_length s d : length (cut_freq q s d) = length s.
Proof. unfold cut_freq. rewrite map_length, firstn_length, cut_complex_length. pose proof (padlen_ge (length s)). lia. Qed.
Lemma cut_freq_nth s d i : (i < length s)%nat -> nth_error (cut_freq q s d) i = Some (zre s d i).
Proof.
  intros H. unfold cut_freq. rewrite nth_error_map. pose proof (padlen_ge (length s)).
  assert (E : nth_error (firstn (length s) (cut_complex q s d)) i = nth_error (cut_complex q s d) i).
  { rewrite <- (firstn_skipn (length s) (cut_complex q s d)) at 2. symmetry. apply nth_error_app1. rewrite firstn_length, cut_complex_length. lia. }
  rewrite E, cut_complex_nth by lia. reflexivity.
Qed.

(** which components go *)
Lemma low_index_eq N d : (0 < N)%nat -> 0 < d -> low_index q N d = ceilZ (q * (INR N - 1) * d / (2 * PI)).
Proof.
  intros HN HD. pose proof PI_RGT_0. unfold low_index. destruct (Nat.eqb_spec N 1) as [->|NE].
  - cbn [INR]. symmetry. apply ceilZ_unique. replace (q * (1 - 1) * d / (2 * PI)) with 0 by (field; lra). lra.
  - cbv zeta. f_equal. assert (2 <= INR N) by (apply (le_INR 2); lia). field. repeat split; lra.
Qed.
Lemma gone_spec N d k : (0 < N)%nat -> 0 < d -> (k < N)%nat ->
  gone N d k = false <-> 2 * PI * INR (Nat.min k (N - k)) / (INR N * d) < q * (INR N - 1) / INR N.
Proof.
  intros HN HD HK. pose proof PI_RGT_0. assert (NN : 0 < INR N) by (apply lt_0_INR; lia). assert (N1 : 1 <= INR N) by (apply (le_INR 1); lia).
  unfold gone. cbv zeta. rewrite low_index_eq by assumption. set (z := q * (INR N - 1) * d / (2 * PI)). set (lo := ceilZ z).
  assert (Z0 : 0 <= z). { unfold z. apply Rmult_le_pos; [apply Rmult_le_pos; [apply Rmult_le_pos|]|]; try lra. left. apply Rinv_0_lt_compat. lra. }
  assert (L0 : (0 <= lo)%Z). { apply le_IZR. pose proof (ceilZ_spec z). fold lo in H0. lra. }
  transitivity (Z.of_nat (Nat.min k (N - k)) < lo)%Z.
  - unfold zeroed, py_bound. destruct (Z.ltb_spec lo 0) as [|_]; [lia|].
    destruct (Z.ltb_spec (Z.of_nat N + 1 - lo) 0) as [G|G]; rewrite andb_false_iff, Z.leb_gt, Z.ltb_ge; lia.
  - unfold lo. rewrite ceilZ_lt, <- INR_IZR_INZ. unfold z. set (m := INR (Nat.min k (N - k))). split; intros H0.
    + apply (Rmult_lt_reg_r (INR N * d / (2 * PI))); [apply Rdiv_lt_0_compat; [apply Rmult_lt_0_compat|]; lra|].
      replace (2 * PI * m / (INR N * d) * (INR N * d / (2 * PI))) with m by (field; lra).
      replace (q * (INR N - 1) / INR N * (INR N * d / (2 * PI))) with (q * (INR N - 1) * d / (2 * PI)) by (field; lra). exact H0.
    + apply (Rmult_lt_compat_r (INR N * d / (2 * PI))) in H0; [|apply Rdiv_lt_0_compat; [apply Rmult_lt_0_compat|]; lra].
      replace (2 * PI * m / (INR N * d) * (INR N * d / (2 * PI))) with m in H0 by (field; lra).
      replace (q * (INR N - 1) / INR N * (INR N * d / (2 * PI))) with (q * (INR N - 1) * d / (2 * PI)) in H0 by (field; lra). exact H0.
Qed.
Lemma gone_sym N d k : 0 < d -> (0 < k < N)%nat -> gone N d (N - k) = gone N d k.
Proof.
  intros HD HK. destruct (gone N d k) eqn:G1, (gone N d (N - k)) eqn:G2; try reflexivity.
  - apply gone_spec in G2; [|lia|exact HD|lia]. replace (N - (N - k))%nat with k in G2 by lia. rewrite Nat.min_comm in G2.
    apply gone_spec in G2; [congruence|lia|exact HD|lia].
  - apply gone_spec in G1; [|lia|exact HD|lia]. rewrite Nat.min_comm in G1. replace k with (N - (N - k))%nat in G1 at 2 by lia.
    apply gone_spec in G1; [congruence|lia|exact HD|lia].
Qed.

(** ** The imaginary part vanishes *)
Lemma rsum_rev n f : rsum n f = rsum n (fun k => f (n - 1 - k)%nat).
Proof.
  induction n as [|n IH]; [reflexivity|]. rewrite (rsum_split 1 n (fun k => f (S n - 1 - k)%nat) : rsum (S n) _ = _). cbn [Covariance.rsum].
  rewrite IH. rewrite Rplus_0_l. rewrite Rplus_comm. f_equal; [f_equal; lia|]. apply rsum_ext. intros k K. f_equal. lia.
Qed.
Lemma rsum_odd N f : f 0%nat = 0 -> (forall k, (0 < k < N)%nat -> f (N - k)%nat = - f k) -> rsum N f = 0.
Proof.
  intros F0 FO. destruct N as [|n]; [reflexivity|]. rewrite (rsum_split 1 n f : rsum (S n) f = _). cbn [Covariance.rsum]. rewrite F0.
  set (g := fun k => f (1 + k)%nat). assert (E : rsum n g = - rsum n g).
  { rewrite (rsum_rev n g) at 1. rewrite <- rsum_opp. apply rsum_ext. intros k K. unfold g. rewrite <- FO by lia. f_equal. lia. }
  lra.
Qed.
Lemma angle_flip N k n : (k < N)%nat -> angle N (N - k) n = 2 * INR n * PI - angle N k n.
Proof. intros K. unfold angle. rewrite minus_INR by lia. assert (0 < INR N) by (apply lt_0_INR; lia). field. lra. Qed.
Lemma cos_flip N k n : (k < N)%nat -> cos (angle N (N - k) n) = cos (angle N k n).
Proof. intros K. rewrite angle_flip by exact K. rewrite cos_minus, cos_2kPI, sin_2kPI. ring. Qed.
Lemma sin_flip N k n : (k < N)%nat -> sin (angle N (N - k) n) = - sin (angle N k n).
Proof. intros K. rewrite angle_flip by exact K. rewrite sin_minus, cos_2kPI, sin_2kPI. ring. Qed.
Lemma angle0 N n : (0 < N)%nat -> angle N 0 n = 0.
Proof. intros. unfold angle. cbn [INR]. assert (0 < INR N) by (apply lt_0_INR; lia). field. lra. Qed.
Lemma re_flip s N k : (k < N)%nat -> re_of s N (N - k) = re_of s N k.
Proof. intros K. unfold re_of. apply rsum_ext. intros n _. now rewrite cos_flip. Qed.
Lemma im_flip s N k : (k < N)%nat -> im_of s N (N - k) = - im_of s N k.
Proof. intros K. unfold im_of. f_equal. rewrite <- rsum_opp. apply rsum_ext. intros n _. rewrite sin_flip by exact K. ring. Qed.
Lemma im_0 s N : (0 < N)%nat -> im_of s N 0 = 0.
Proof. intros H. unfold im_of. rewrite rsum_zero; [ring|]. intros n _. rewrite angle0 by exact H. rewrite sin_0. ring. Qed.

Lemma zim_zero s d i : 0 < d -> zim s d i = 0.
Proof.
  intros HD. unfold zim. cbv zeta. set (N := padlen (length s)). assert (HN : (0 < N)%nat) by apply padlen_pos.
  rewrite rsum_odd; [ring| |].
  - rewrite im_0 by exact HN. rewrite angle0, sin_0 by exact HN. unfold maskR. destruct (gone N d 0); ring.
  - intros k K. rewrite gone_sym by (try exact HD; lia). rewrite re_flip, im_flip, sin_flip, cos_flip by lia. unfold maskR. destruct (gone N d k); ring.
Qed.

(** ** The spectrum of the result *)
Lemma spectrum s d l : 0 < d -> length s = padlen (length s) -> (l < length s)%nat ->
  re_of (cut_freq q s d) (length s) l = maskR (gone (length s) d l) (re_of s (length s) l) /\
  im_of (cut_freq q s d) (length s) l = maskR (gone (length s) d l) (im_of s (length s) l).
Proof.
  intros HD HP HL. set (N := length s) in *. assert (HN : (0 < N)%nat) by lia. assert (NN : 0 < INR N) by (now apply lt_0_INR).
  assert (NTH : forall n, (n < N)%nat -> nth n (cut_freq q s d) 0 = zre s d n) by (intros n Hn; apply nth_error_nth; apply cut_freq_nth; exact Hn).
  assert (ZR : forall n, zre s d n = / INR N * rsum N (fun k => maskR (gone N d k) (re_of s N k * cos (angle N k n) - im_of s N k * sin (angle N k n)))).
  { intros n. unfold zre. cbv zeta. fold N. now rewrite <- HP. }
  assert (ZI : forall n, / INR N * rsum N (fun k => maskR (gone N d k) (re_of s N k * sin (angle N k n) + im_of s N k * cos (angle N k n))) = 0).
  { intros n. rewrite <- (zim_zero s d n HD). unfold zim. cbv zeta. fold N. now rewrite <- HP. }
  split.
  - unfold re_of at 1. rewrite cut_freq_length. fold N.
    rewrite (rsum_ext N _ (fun n => rsum N (fun k => / INR N * maskR (gone N d k) (re_of s N k * cos (angle N k n - angle N l n) - im_of s N k * sin (angle N k n - angle N l n))))).
    + rewrite rsum_swap.
      rewrite (rsum_ext N _ (fun k => if (k =? l)%nat then maskR (gone N d k) (re_of s N k) else 0)).
      * rewrite (rsum_one N l) by (try exact HL; intros k _ NE; rewrite (proj2 (Nat.eqb_neq k l) NE); reflexivity). now rewrite Nat.eqb_refl.
      * intros k K. unfold maskR. destruct (gone N d k).
        { rewrite rsum_zero by (intros; ring). now destruct (k =? l)%nat. }
        rewrite rsum_scal, rsum_minus, !rsum_scal, cos_orth_diff, sin_orth_diff by assumption.
        destruct (k =? l)%nat; field; lra.
    + intros n Hn. rewrite NTH by exact Hn. transitivity (zre s d n * cos (angle N l n) + 0 * sin (angle N l n)); [ring|].
      rewrite <- (ZI n), ZR. rewrite !Rmult_assoc, <- !rsum_scal_r, <- !rsum_scal, <- rsum_plus. apply rsum_ext. intros k K.
      rewrite cos_minus, sin_minus. unfold maskR. destruct (gone N d k); ring.
  - unfold im_of at 1. rewrite cut_freq_length. fold N. rewrite <- rsum_opp.
    rewrite (rsum_ext N _ (fun n => rsum N (fun k => / INR N * maskR (gone N d k) (re_of s N k * sin (angle N k n - angle N l n) + im_of s N k * cos (angle N k n - angle N l n))))).
    + rewrite rsum_swap.
      rewrite (rsum_ext N _ (fun k => if (k =? l)%nat then maskR (gone N d k) (im_of s N k) else 0)).
      * rewrite (rsum_one N l) by (try exact HL; intros k _ NE; rewrite (proj2 (Nat.eqb_neq k l) NE); reflexivity). now rewrite Nat.eqb_refl.
      * intros k K. unfold maskR. destruct (gone N d k).
        { rewrite rsum_zero by (intros; ring). now destruct (k =? l)%nat. }
        rewrite rsum_scal, rsum_plus, !rsum_scal, cos_orth_diff, sin_orth_diff by assumption.
        destruct (k =? l)%nat; field; lra.
    + intros n Hn. rewrite NTH by exact Hn. transitivity (0 * cos (angle N l n) + - (zre s d n * sin (angle N l n))); [ring|].
      rewrite <- (ZI n), ZR. rewrite !Rmult_assoc, <- !rsum_scal_r, <- !rsum_scal, <- rsum_opp, <- rsum_plus. apply rsum_ext. intros k K.
      rewrite cos_minus, sin_minus. unfold maskR. destruct (gone N d k); ring.
Qed.

(** ** Inversion: the full sum gives the signal back *)
Lemma angle_comm N k n : angle N k n = angle N n k.
Proof. unfold angle. unfold Rdiv. ring. Qed.
Lemma inversion s i : (i < length s)%nat -> let N := length s in
  / INR N * rsum N (fun k => re_of s N k * cos (angle N k i) - im_of s N k * sin (angle N k i)) = nth i s 0.
Proof.
  intros HI N. assert (HN : (0 < N)%nat) by (unfold N; lia). assert (NN : 0 < INR N) by (now apply lt_0_INR).
  rewrite (rsum_ext N _ (fun k => rsum N (fun m => nth m s 0 * cos (angle N m k - angle N i k)))).
  - rewrite rsum_swap. rewrite (rsum_ext N _ (fun m => if (m =? i)%nat then INR N * nth m s 0 else 0)).
    + rewrite (rsum_one N i) by (try exact HI; intros k _ NE; rewrite (proj2 (Nat.eqb_neq k i) NE); reflexivity). rewrite Nat.eqb_refl. field. lra.
    + intros m M. rewrite rsum_scal, cos_orth_diff by assumption. destruct (m =? i)%nat; ring.
  - intros k K. unfold re_of, im_of. fold N. unfold Rminus. rewrite <- !rsum_scal_r. rewrite Ropp_mult_distr_l. rewrite Ropp_involutive. rewrite <- rsum_scal_r, <- rsum_plus.
    apply rsum_ext. intros m M. fold (angle N m k - angle N i k). rewrite cos_minus, (angle_comm N m k), (angle_comm N i k). ring.
Qed.
End Cut.

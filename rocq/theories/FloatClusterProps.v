(** C237: the clustering theorems speak of doubles.

    DataClusters.v computes with integers and passes every subtraction through a rounding
    function; its theorems hold for every [faithful] rounding.  Here: doubles are the
    multiples of 2^-1074, numbered by integers in their order, and binary64 subtraction
    becomes such a rounding.  Simplification: no overflow (numbers are unbounded above). *)
From Coq Require Import Reals Lra Sorted.
From Flocq Require Import Core.
From Verif Require Import Prelude DataClusters DataClustersSpec FloatWidth FloatWidthProps.
Open Scope R_scope.
#[local] Existing Instance prec_ok.
#[local] Existing Instance fexp_ok.

Definition tick : R := bpow radix2 (-1074).
(** The number with the number z. *)
Definition val (z : Z) : R := IZR z * tick.
(** Rounding of the numbers. *)
Definition rndZ (z : Z) : Z := Zfloor (rnd (val z) * bpow radix2 1074).

Lemma tick_pos : 0 < tick. Proof. apply bpow_gt_0. Qed.
Lemma val_lt a b : (a < b)%Z <-> val a < val b.
Proof.
  unfold val. pose proof tick_pos as T. split; intros H.
  - apply Rmult_lt_compat_r; [exact T|now apply IZR_lt].
  - apply lt_IZR. now apply Rmult_lt_reg_r with tick.
Qed.
Lemma val_le a b : (a <= b)%Z -> val a <= val b.
Proof. intros H. unfold val. apply Rmult_le_compat_r; [apply Rlt_le, tick_pos|now apply IZR_le]. Qed.
Lemma val_inj a b : val a = val b -> a = b.
Proof. unfold val. intros H. pose proof tick_pos. apply eq_IZR. apply Rmult_eq_reg_r with tick; lra. Qed.
Lemma val_sub a b : val (a - b) = val a - val b.
Proof. unfold val. rewrite minus_IZR. ring. Qed.
Lemma float_val x : is_float x -> exists z, x = val z.
Proof.
  intros F. apply FLT_format_generic in F; [|exact prec_ok]. destruct F as [[m e] E M L]. cbn in E, L.
  exists (m * 2 ^ (e + 1074))%Z. rewrite E. unfold val, F2R, tick. cbn [Fnum Fexp].
  rewrite mult_IZR. change 2%Z with (radix_val radix2). rewrite IZR_Zpower by lia. rewrite Rmult_assoc, <- bpow_plus. f_equal. f_equal. lia.
Qed.
Lemma rndZ_val z : val (rndZ z) = rnd (val z).
Proof.
  unfold rndZ. destruct (float_val (rnd (val z)) (rnd_float _)) as [w E]. rewrite E. unfold val at 2. unfold tick. rewrite Rmult_assoc, <- bpow_plus. change (-1074 + 1074)%Z with 0%Z. change (bpow radix2 0) with 1. rewrite Rmult_1_r, Zfloor_IZR. reflexivity.
Qed.
Lemma small_val z : (Z.abs z <= 2 ^ 53)%Z -> is_float (val z).
Proof.
  intros H. destruct (Z.eq_dec (Z.abs z) (2 ^ 53)) as [E|E].
  - apply generic_format_abs_inv. replace (Rabs (val z)) with (bpow radix2 (53 - 1074)); [apply is_bpow; lia|].
    unfold val. rewrite Rabs_mult, <- abs_IZR, E, (Rabs_right tick) by (apply Rle_ge, Rlt_le, tick_pos). unfold tick. change 2%Z with (radix_val radix2). rewrite (IZR_Zpower radix2 53) by lia. rewrite <- bpow_plus. reflexivity.
  - apply generic_format_FLT. exists (Float radix2 z (-1074)); [reflexivity| |cbn; lia]. cbn [Fnum]. change (Zpower radix2 53) with (2 ^ 53)%Z. lia.
Qed.
Lemma rndZ_faithful : faithful rndZ.
Proof.
  split.
  - intros a b H. destruct (Z.le_gt_cases (rndZ a) (rndZ b)) as [L|L]; [exact L|]. exfalso. apply val_lt in L. rewrite !rndZ_val in L.
    pose proof (rnd_le _ _ (val_le a b H)). lra.
  - intros a. split.
    + intros E. destruct (Z.eq_dec a 0) as [H|H]; [exact H|]. exfalso.
      assert (N : forall z, (1 <= z)%Z -> val 1 <= rnd (val z)).
      { intros z Hz. apply rnd_down; [apply small_val; cbn; lia|now apply val_le]. }
      assert (V : rnd (val a) = 0) by (rewrite <- rndZ_val, E; unfold val; ring).
      assert (P : 0 < val 1) by (unfold val; pose proof tick_pos; lra).
      destruct (Z.lt_ge_cases a 0) as [L|L].
      * specialize (N (- a)%Z ltac:(lia)). replace (val (- a)) with (- val a) in N by (unfold val; rewrite opp_IZR; ring).
        unfold rnd in N, V. rewrite round_NE_opp in N. rewrite V in N. lra.
      * specialize (N a ltac:(lia)). lra.
    + intros ->. apply val_inj. rewrite rndZ_val. replace (val 0) with 0 by (unfold val; ring). apply rnd_0.
Qed.
Lemma rndZ_pow k z : (0 <= k)%Z -> rndZ (2 ^ k * z) = (2 ^ k * rndZ z)%Z.
Proof.
  intros K. apply val_inj. rewrite rndZ_val.
  assert (S : forall w, val (2 ^ k * w) = val w * bpow radix2 k).
  { intros w. unfold val. rewrite mult_IZR. change 2%Z with (radix_val radix2). rewrite IZR_Zpower by exact K. ring. }
  rewrite !S, rndZ_val.
  destruct (Z.le_gt_cases (Z.abs z) (2 ^ 53)) as [L|L].
  - rewrite (rnd_id (val z)) by now apply small_val. apply rnd_id.
    apply Mult_error.mult_bpow_pos_exact_FLT; [now apply small_val|exact K].
  - assert (NZ : val z <> 0).
    { intros E. assert (z = 0%Z) by (apply val_inj; rewrite E; unfold val; ring). subst z. cbn in L. lia. }
    assert (M : (53 - 1074 < mag radix2 (val z))%Z).
    { apply mag_gt_bpow. change (53 - 1074)%Z with (53 + -1074)%Z. rewrite bpow_plus. fold tick. unfold val. rewrite Rabs_mult, (Rabs_right tick) by (apply Rle_ge, Rlt_le, tick_pos). apply Rmult_le_compat_r; [apply Rlt_le, tick_pos|].
      rewrite <- abs_IZR. change (bpow radix2 53) with (IZR (2 ^ 53)). apply IZR_le. lia. }
    unfold rnd, round.
    assert (C : cexp radix2 fexp64 (val z * bpow radix2 k) = (cexp radix2 fexp64 (val z) + k)%Z).
    { unfold cexp. rewrite mag_mult_bpow by exact NZ. unfold fexp64, FLT_exp. lia. }
    unfold scaled_mantissa. rewrite C. set (e := cexp radix2 fexp64 (val z)).
    replace (val z * bpow radix2 k * bpow radix2 (- (e + k))) with (val z * bpow radix2 (- e)).
    + unfold F2R. cbn [Fnum Fexp]. rewrite bpow_plus. ring.
    + rewrite Rmult_assoc, <- bpow_plus. f_equal. f_equal. lia.
Qed.
Lemma sorted_val X : StronglySorted Rlt X -> Forall is_float X -> exists zs, map val zs = X.
Proof.
  intros _ F. induction F as [|x X H _ [zs IH]]; [now exists []|]. destruct (float_val x H) as [z E]. exists (z :: zs). cbn. now rewrite IH, <- E.
Qed.

Lemma increasing_val zs : StronglySorted Rlt (map val zs) -> increasing zs.
Proof.
  induction zs as [|z zs IH]; intros S i j a b L A B; [destruct i; discriminate|]. cbn [map] in S. apply StronglySorted_inv in S. destruct S as [S F].
  destruct j as [|j]; [lia|]. cbn [nth_error] in B. destruct i as [|i].
  - cbn in A. injection A as <-. apply val_lt. rewrite Forall_forall in F. apply F. apply in_map. eapply nth_error_In. exact B.
  - cbn [nth_error] in A. apply (IH S i j a b); [lia|exact A|exact B].
Qed.

(** Doubles are numbered by integers in their order, each by exactly one; any strictly
    increasing list of doubles is numbered by an increasing list of integers; the rounded
    difference of two doubles is numbered by [rndZ] of the difference of their numbers; and
    [rndZ] is a faithful rounding that commutes with powers of two: what the theorems on
    clustering (C01-C11, C103, C227) assume. *)
Theorem C237_clustering_of_doubles :
  faithful rndZ /\
  (forall x, is_float x -> exists z, x = val z /\ forall z', x = val z' -> z' = z) /\
  (forall a b, (a < b)%Z <-> val a < val b) /\
  (forall X, Forall is_float X -> StronglySorted Rlt X -> exists zs, map val zs = X /\ increasing zs) /\
  (forall a b, val (rndZ (a - b)) = rnd (val a - val b)) /\
  (forall k z, (0 <= k)%Z -> rndZ (2 ^ k * z) = (2 ^ k * rndZ z)%Z).
Proof.
  split; [exact rndZ_faithful|]. split.
  { intros x F. destruct (float_val x F) as [z E]. exists z. split; [exact E|]. intros z' E'. apply val_inj. congruence. }
  split; [exact val_lt|]. split.
  { intros X F S. destruct (sorted_val X S F) as [zs E]. exists zs. split; [exact E|]. now apply increasing_val; rewrite E. }
  split; [|exact rndZ_pow].
  intros a b. now rewrite rndZ_val, val_sub.
Qed.
Print Assumptions C237_clustering_of_doubles.
Example C237_nonvacuous : Forall is_float [1; 2] /\ StronglySorted Rlt [1; 2] /\ exists z, val z = 1 /\ rndZ z = z.
Proof.
  split; [repeat constructor; [exact is_1|exact is_2]|]. split; [repeat constructor; lra|]. destruct (float_val 1 is_1) as [z E]. exists z. split; [now symmetry|].
  apply val_inj. rewrite rndZ_val, <- E. apply rnd_id, is_1.
Qed.

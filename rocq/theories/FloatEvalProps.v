(** C233-C236: the evaluators in floating-point arithmetic. *)
From Coq Require Import Reals Lra Permutation.
From Flocq Require Import Core Relative Plus_error.
From Verif Require Import Prelude Evaluators FloatWidth FloatWidthProps FloatEval.
Open Scope R_scope.
#[local] Existing Instance prec_ok.
#[local] Existing Instance fexp_ok.
#[local] Existing Instance mono_ok.

(** *** Closeness up to k roundings: each number is at most (1 + 2^-52)^k times the other. *)
Definition near (k : nat) (x y : R) : Prop := 0 <= x /\ 0 <= y /\ x <= y * (1 + 2 * u) ^ k /\ y <= x * (1 + 2 * u) ^ k.
Lemma grow_ge1 k : 1 <= (1 + 2 * u) ^ k.
Proof. apply pow_R1_Rle. pose proof u_small. lra. Qed.
Lemma grow_pos k : 0 < (1 + 2 * u) ^ k. Proof. pose proof (grow_ge1 k). lra. Qed.
Lemma near_refl k x : 0 <= x -> near k x x.
Proof. intros H. pose proof (grow_ge1 k). unfold near. repeat split; try exact H; rewrite <- (Rmult_1_r x) at 1; apply Rmult_le_compat_l; lra. Qed.
Lemma near_trans j k x y z : near j x y -> near k y z -> near (j + k) x z.
Proof.
  intros (X & Y & A & B) (_ & Z & C & D). pose proof (grow_pos j). pose proof (grow_pos k). split; [exact X|]. split; [exact Z|]. rewrite pow_add. split.
  - eapply Rle_trans; [exact A|]. rewrite (Rmult_comm (_ ^ j)), <- Rmult_assoc. apply Rmult_le_compat_r; lra.
  - eapply Rle_trans; [exact D|]. rewrite <- Rmult_assoc. apply Rmult_le_compat_r; lra.
Qed.
Lemma near_weaken j k x y : (j <= k)%nat -> near j x y -> near k x y.
Proof. intros L N. replace k with (j + (k - j))%nat by lia. eapply near_trans; [exact N|]. apply near_refl, N. Qed.
Lemma near_sym k x y : near k x y -> near k y x.
Proof. intros (A & B & C & D). repeat split; assumption. Qed.
Lemma near_plus k a b x y : near k a x -> near k b y -> near k (a + b) (x + y).
Proof. intros (A & B & C & D) (A' & B' & C' & D'). repeat split; lra. Qed.
Lemma near_mult j k a b x y : near j a x -> near k b y -> near (j + k) (a * b) (x * y).
Proof.
  intros (A & B & C & D) (A' & B' & C' & D'). rewrite <- ?pow_add. split; [now apply Rmult_le_pos|]. split; [now apply Rmult_le_pos|]. rewrite pow_add. split.
  - replace (x * y * (_ ^ j * _ ^ k)) with ((x * (1 + 2 * u) ^ j) * (y * (1 + 2 * u) ^ k)) by ring. apply Rmult_le_compat; assumption.
  - replace (a * b * (_ ^ j * _ ^ k)) with ((a * (1 + 2 * u) ^ j) * (b * (1 + 2 * u) ^ k)) by ring. apply Rmult_le_compat; assumption.
Qed.
Lemma near_inv k x y : 0 < x -> 0 < y -> near k x y -> near k (/ x) (/ y).
Proof.
  intros X Y (_ & _ & C & D). pose proof (Rinv_0_lt_compat x X). pose proof (Rinv_0_lt_compat y Y). pose proof (grow_pos k). split; [lra|]. split; [lra|].
  split; (apply Rmult_le_reg_r with (x * y); [now apply Rmult_lt_0_compat|]).
  - replace (/ x * (x * y)) with y by (field; lra). replace (/ y * _ ^ k * (x * y)) with (x * (1 + 2 * u) ^ k) by (field; lra). exact D.
  - replace (/ y * (x * y)) with x by (field; lra). replace (/ x * _ ^ k * (x * y)) with (y * (1 + 2 * u) ^ k) by (field; lra). exact C.
Qed.
Lemma near_error x y : 0 <= x -> Rabs (y - x) <= u * x -> near 1 x y.
Proof.
  intros X E. pose proof u_small as U. apply Rabs_le_inv in E. assert (UX : 0 <= u * x) by (apply Rmult_le_pos; lra).
  assert (UX1 : u * x <= 1 / 1000000 * x) by (apply Rmult_le_compat_r; lra).
  unfold near. rewrite pow_1. split; [exact X|]. split; [lra|]. split; [|lra].
  assert (L : u * (x - 2 * (u * x)) >= 0) by (apply Rle_ge, Rmult_le_pos; lra).
  assert (M : (1 + 2 * u) * (x - u * x) <= (1 + 2 * u) * y) by (apply Rmult_le_compat_l; lra). lra.
Qed.
Lemma near_rnd x : bpow radix2 (-1022) <= x -> near 1 x (rnd x).
Proof.
  intros H. assert (P : 0 <= x) by (eapply Rle_trans; [apply bpow_ge_0|exact H]). apply near_error; [exact P|].
  pose proof (rnd_rel x) as R. rewrite (Rabs_right x) in R by lra. now apply R.
Qed.
Lemma near_rnd_plus a b : is_float a -> is_float b -> 0 <= a -> 0 <= b -> near 1 (a + b) (rnd (a + b)).
Proof.
  intros FA FB A B. destruct (Rle_dec (a + b) (bpow radix2 (-1022))) as [L|L]; [|apply near_rnd; lra].
  assert (F : is_float (a + b)).
  { unfold is_float, fexp64. apply (FLT_format_plus_small radix2 (-1074) 53 a b); [exact FA|exact FB|]. rewrite Rabs_right by lra. eapply Rle_trans; [exact L|]. apply bpow_le. lia. }
  rewrite (rnd_id _ F). apply near_refl. lra.
Qed.

(** *** Sums *)
Definition nonneg_float (x : R) : Prop := is_float x /\ 0 <= x.
Definition total (l : list R) : R := fold_right Rplus 0 l.
Lemma total_app a b : total (a ++ b) = total a + total b.
Proof. unfold total. induction a as [|x a IH]; cbn [fold_right app]; [lra|rewrite IH; ring]. Qed.
Lemma total_perm a b : Permutation a b -> total a = total b.
Proof. unfold total. intros P. induction P; cbn; lra. Qed.
Lemma total_pos l : Forall nonneg_float l -> 0 <= total l.
Proof. unfold total. intros F. induction F as [|x l [_ H] _ IH]; cbn; lra. Qed.
Lemma summed_facts l s : summed l s -> Forall nonneg_float l -> nonneg_float s /\ near (length l - 1) (total l) s /\ Forall (fun x => x <= s) l.
Proof.
  intros S. induction S as [|x|l1 l2 a b S1 IH1 S2 IH2|l l' s P S IH]; intros F.
  - split; [split; [apply is_0|lra]|]. split; [apply near_refl; cbn; lra|constructor].
  - inversion F as [|? ? [N P] _]; subst. split; [split; assumption|]. split; [|constructor; [lra|constructor]]. unfold total. cbn. rewrite Rplus_0_r. now apply near_refl.
  - apply Forall_app in F. destruct F as [F1 F2]. destruct (IH1 F1) as ((NA & PA) & A1 & M1). destruct (IH2 F2) as ((NB & PB) & A2 & M2).
    split; [split; [apply rnd_float|apply rnd_pos; lra]|]. split.
    + rewrite total_app. destruct l1 as [|x1 l1].
      { assert (Z : a = 0).
        { destruct A1 as (_ & _ & _ & D). cbn in D. unfold total in D. cbn in D. lra. }
        subst a. cbn [app length]. rewrite (Rplus_0_l b), (rnd_id b NB). change (total []) with 0. rewrite Rplus_0_l. exact A2. }
      destruct l2 as [|x2 l2].
      { assert (Z : b = 0).
        { destruct A2 as (_ & _ & _ & D). cbn in D. unfold total in D. cbn in D. lra. }
        subst b. rewrite app_nil_r, (Rplus_0_r a), (rnd_id a NA). change (total []) with 0. rewrite Rplus_0_r. exact A1. }
      set (m1 := (length (x1 :: l1) - 1)%nat) in *. set (m2 := (length (x2 :: l2) - 1)%nat) in *.
      replace (length ((x1 :: l1) ++ x2 :: l2) - 1)%nat with ((m1 + m2) + 1)%nat by (rewrite app_length; unfold m1, m2; cbn; lia).
      apply near_trans with (a + b); [|now apply near_rnd_plus].
      apply near_plus; [eapply near_weaken; [|exact A1]; lia|eapply near_weaken; [|exact A2]; lia].
    + apply Forall_app. split.
      * eapply Forall_impl; [|exact M1]. cbn. intros x H. eapply Rle_trans; [exact H|]. apply rnd_down; [exact NA|lra].
      * eapply Forall_impl; [|exact M2]. cbn. intros x H. eapply Rle_trans; [exact H|]. apply rnd_down; [exact NB|lra].
  - assert (F' : Forall nonneg_float l) by (eapply Permutation_Forall; [apply Permutation_sym, P|exact F]). destruct (IH F') as (A & B & C).
    split; [exact A|]. split; [|eapply Permutation_Forall; [exact P|exact C]].
    rewrite <- (total_perm _ _ P), <- (Permutation_length P). exact B.
Qed.
Lemma summed_exists l : exists s, summed l s.
Proof. induction l as [|x l [s S]]; [exists 0; constructor|]. exists (rnd (x + s)). change (x :: l) with ([x] ++ l). apply sum_cat; [apply sum_one|exact S]. Qed.

(** *** C233: chi-square *)
Lemma term_nonneg p : 0 < sq (snd p) -> nonneg_float (term_f p).
Proof.
  destruct p as [[e o] s]. cbn. intros H. split; [apply rnd_float|]. apply rnd_pos. apply Rmult_le_pos; [apply sq_pos|]. now apply Rlt_le, Rinv_0_lt_compat.
Qed.
(** A point whose deviation, error bar, their squares and the quotient are 0 or not
    subnormal. *)
Definition normal (x : R) : Prop := bpow radix2 (-1022) <= Rabs x.
Definition regular (p : R * R * R) : Prop :=
  let '(e, o, s) := p in 0 < s /\ normal (s ^ 2) /\
  (e = o \/ normal (e - o) /\ normal (rnd (e - o) ^ 2) /\ normal (sq (rnd (e - o)) / sq s)).
Lemma near_abs_square k x y : near k (Rabs x) (Rabs y) -> near (k + k) (x ^ 2) (y ^ 2).
Proof. intros N. rewrite <- (pow2_abs x), <- (pow2_abs y). cbn [pow]. rewrite !Rmult_1_r. now apply near_mult. Qed.
Lemma near_sq x : normal (x ^ 2) -> near 1 (x ^ 2) (sq x).
Proof.
  intros N. unfold sq. replace (x * x) with (x ^ 2) by ring. apply near_rnd. unfold normal in N. rewrite Rabs_right in N; [exact N|]. apply Rle_ge, pow2_ge_0.
Qed.
Lemma term_near p : regular p -> near 5 (let '(e, o, s) := p in (e - o) ^ 2 / s ^ 2) (term_f p).
Proof.
  destruct p as [[e o] s]. intros (S & NS & [E|(N1 & N2 & N3)]).
  - subst o. cbn [term_f]. replace (e - e) with 0 by ring. rewrite rnd_0. unfold sq. rewrite Rmult_0_l, rnd_0. unfold Rdiv. replace (0 ^ 2) with 0 by ring. rewrite !Rmult_0_l, rnd_0. apply near_refl. lra.
  - cbn [term_f]. set (d := rnd (e - o)) in *.
    assert (A : near 1 (Rabs (e - o)) (Rabs d)).
    { unfold d, rnd. rewrite <- round_NE_abs by typeclasses eauto. apply near_rnd. exact N1. }
    assert (B : near 3 ((e - o) ^ 2) (sq d)) by (apply (near_trans 2 1 _ (d ^ 2)); [now apply (near_abs_square 1)|now apply near_sq]).
    pose proof (near_sq s NS) as C. assert (P : 0 < s ^ 2) by (apply pow_lt; exact S).
    assert (Q : 0 < sq s).
    { destruct C as (_ & C1 & C2 & _). destruct C1 as [C1|C1]; [exact C1|]. rewrite <- C1 in C2. lra. }
    apply (near_trans 4 1 _ (sq d / sq s)); [apply (near_mult 3 1); [exact B|now apply near_inv]|].
    apply near_rnd. unfold normal in N3. rewrite Rabs_right in N3; [exact N3|]. apply Rle_ge, Rmult_le_pos; [apply sq_pos|now apply Rlt_le, Rinv_0_lt_compat].
Qed.
Lemma terms_near ps : Forall regular ps -> near 5 (chi_squared ps) (total (map term_f ps)).
Proof.
  unfold chi_squared, total. intros F. induction F as [|p ps H _ IH]; [apply near_refl; cbn; lra|]. cbn [map fold_right]. apply near_plus; [now apply term_near|exact IH].
Qed.

(** Chi-square in double precision, whatever the order and grouping of the additions: it is a
    nonnegative double; it is 0 when every value equals its observation; it is at least the
    contribution of each point; and if no intermediate result is subnormal it agrees with the
    exact chi-square to a factor of (1 + 2^-52)^(n + 4), n the number of points. *)
Theorem C233_chi_squared_in_double_precision :
  forall ps c, (forall p, In p ps -> 0 < sq (snd p)) -> chi_squared_f ps c ->
  is_float c /\ 0 <= c /\
  ((forall p, In p ps -> fst (fst p) = snd (fst p)) -> c = 0) /\
  (forall p, In p ps -> term_f p <= c) /\
  ((forall p, In p ps -> regular p) ->
     c <= chi_squared ps * (1 + 2 * u) ^ (length ps + 4) /\ chi_squared ps <= c * (1 + 2 * u) ^ (length ps + 4)).
Proof.
  intros ps c Hs S.
  assert (F : Forall nonneg_float (map term_f ps)) by (apply Forall_map, Forall_forall; intros p Hp; now apply term_nonneg, Hs).
  destruct (summed_facts _ _ S F) as ((N & P) & A & M). split; [exact N|]. split; [exact P|]. split; [|split].
  - intros E. destruct A as (_ & _ & _ & D). assert (Z : total (map term_f ps) = 0).
    { clear -E. induction ps as [|[[e o] s] ps IH]; [reflexivity|]. unfold total in *. cbn [map fold_right]. rewrite IH by (intros p Hp; apply E; now right).
      specialize (E (e, o, s) (or_introl eq_refl)). cbn in E. subst o. cbn [term_f]. replace (e - e) with 0 by ring. rewrite rnd_0. unfold sq. rewrite Rmult_0_l, rnd_0. unfold Rdiv. rewrite Rmult_0_l, rnd_0. lra. }
    rewrite Z, Rmult_0_l in D. lra.
  - intros p Hp. rewrite Forall_forall in M. apply M. now apply in_map.
  - intros R. assert (R' : Forall regular ps) by now apply Forall_forall.
    assert (T : near (5 + (length ps - 1)) (chi_squared ps) c) by (eapply near_trans; [apply terms_near, R'|rewrite map_length in A; exact A]).
    destruct ps as [|p ps].
    { destruct A as (_ & _ & _ & D). unfold total in D. cbn in D. unfold chi_squared. cbn [map fold_right]. assert (c = 0) by lra. subst c. lra. }
    apply (near_weaken _ (length (p :: ps) + 4)) in T; [|cbn; lia]. destruct T as (_ & _ & C & D). split; assumption.
Qed.
Print Assumptions C233_chi_squared_in_double_precision.
Example C233_nonvacuous :
  exists c, chi_squared_f [(1, 0, 1); (2, 2, 1)] c /\ (forall p, In p [(1, 0, 1); (2, 2, 1)] -> 0 < sq (snd p) /\ regular p) /\ 1 <= c.
Proof.
  assert (S1 : sq 1 = 1) by (unfold sq; rewrite Rmult_1_r; apply rnd_id, is_1).
  assert (N1 : normal 1) by (unfold normal; rewrite Rabs_right by lra; change 1 with (bpow radix2 0); apply bpow_le; lia).
  assert (D1 : rnd (1 - 0) = 1) by (rewrite Rminus_0_r; apply rnd_id, is_1).
  assert (G : forall p, In p [(1, 0, 1); (2, 2, 1)] -> 0 < sq (snd p) /\ regular p).
  { intros p [<-|[<-|[]]]; cbn [snd]; rewrite S1; (split; [lra|]); unfold regular; (split; [lra|]); (split; [now replace (1 ^ 2) with 1 by ring|]).
    - right. rewrite D1, S1. replace (1 ^ 2) with 1 by ring. replace (1 / 1) with 1 by field. rewrite Rminus_0_r. tauto.
    - now left. }
  destruct (summed_exists (map term_f [(1, 0, 1); (2, 2, 1)])) as [c S]. exists c. split; [exact S|]. split; [exact G|].
  destruct (C233_chi_squared_in_double_precision _ c (fun p Hp => proj1 (G p Hp)) S) as (_ & _ & _ & M & _).
  specialize (M (1, 0, 1) (or_introl eq_refl)). cbn [term_f] in M. rewrite D1, S1 in M. replace (1 / 1) with 1 in M by field. rewrite (rnd_id 1 is_1) in M. exact M.
Qed.

(** *** C234: the statistics *)
Lemma int_le a b : (a <= b)%Z -> float_of_int a <= float_of_int b.
Proof. intros H. apply rnd_le. now apply IZR_le. Qed.
Lemma int_pos a : (0 <= a)%Z -> 0 <= float_of_int a.
Proof. intros H. apply rnd_pos. now apply (IZR_le 0). Qed.
Lemma int_ge1 a : (1 <= a)%Z -> 1 <= float_of_int a.
Proof. intros H. apply rnd_down; [exact is_1|]. now apply (IZR_le 1). Qed.
Lemma quot_le a b c d : 0 <= a <= b -> 1 <= d <= c -> a / c <= b / d.
Proof.
  intros H G. unfold Rdiv. apply Rmult_le_compat; [lra|apply Rlt_le, Rinv_0_lt_compat; lra|lra|]. apply Rinv_le_contravar; lra.
Qed.
Lemma penalty_mono m k k' n n' : (m = AIC \/ m = AICc) -> (0 <= k <= k')%Z -> (n' <= n)%Z -> (minpoints m k <= n)%Z -> (minpoints m k' <= n')%Z ->
  0 <= penalty_f m k n <= penalty_f m k' n'.
Proof.
  intros [-> | ->] K N M M'; cbn [penalty_f minpoints] in *.
  - split; [apply int_pos; lia|apply int_le; lia].
  - assert (A : 0 <= rnd (float_of_int (2 * k * (k + 1)) / float_of_int (n - k - 1))).
    { apply rnd_pos. apply Rmult_le_pos; [apply int_pos; nia|]. apply Rlt_le, Rinv_0_lt_compat. pose proof (int_ge1 (n - k - 1)). lra || (assert (1 <= float_of_int (n - k - 1)) by (apply int_ge1; lia); lra). }
    split; [apply rnd_pos; pose proof (int_pos (2 * k) ltac:(lia)); lra|].
    apply rnd_le. apply Rplus_le_compat; [apply int_le; lia|]. apply rnd_le. apply quot_le; split.
    + apply int_pos; nia.
    + apply int_le; nia.
    + apply int_ge1; lia.
    + apply int_le; lia.
Qed.

(** AIC and AICc in double precision, in whatever rounding: on the same number of points, a
    model with at most as many parameters and at most as large a chi-square never has the
    larger statistic; more points never raise it; the statistic is never below chi-square, and
    AICc never below AIC; growth is never justified when chi-square is 0, and growth justified
    at one chi-square is justified at every larger one. *)
Theorem C234_criteria_in_double_precision :
  forall m, (m = AIC \/ m = AICc) ->
  (forall k k' n c c', (0 <= k <= k')%Z -> c <= c' -> (minpoints m k' <= n)%Z -> stat_f m k n c <= stat_f m k' n c') /\
  (forall k n n' c, (0 <= k)%Z -> (n <= n')%Z -> stat_f m k n' c <= stat_f m k n c) /\
  (forall k n c, (0 <= k)%Z -> is_float c -> c <= stat_f m k n c) /\
  (forall k n c, (0 <= k)%Z -> stat_f AIC k n c <= stat_f AICc k n c) /\
  (forall k k' n, (0 <= k)%Z -> (0 <= k')%Z -> growth_f m k k' n 0 = false) /\
  (forall k k' n c c', c <= c' -> growth_f m k k' n c = true -> growth_f m k k' n c' = true).
Proof.
  intros m Hm.
  assert (MM : forall a b, (a <= b)%Z -> (minpoints m a <= minpoints m b)%Z) by (intros a b L; destruct Hm as [-> | ->]; cbn; lia).
  split; [|split; [|split; [|split; [|split]]]].
  - intros k k' n c c' K C M. unfold stat_f. apply rnd_le. apply Rplus_le_compat; [exact C|]. specialize (MM k k' ltac:(lia)).
    rewrite !Z.max_l by lia. apply penalty_mono; [exact Hm|exact K|lia|lia|lia].
  - intros k n n' c K N. unfold stat_f. apply rnd_le. apply Rplus_le_compat_l. apply penalty_mono; [exact Hm|lia|lia|lia|lia].
  - intros k n c K F. unfold stat_f. apply rnd_down; [exact F|].
    pose proof (penalty_mono m k k (Z.max n (minpoints m k)) (Z.max n (minpoints m k)) Hm ltac:(lia) ltac:(lia) ltac:(lia) ltac:(lia)). lra.
  - intros k n c K. unfold stat_f. apply rnd_le. apply Rplus_le_compat_l. cbn [penalty_f minpoints]. apply rnd_down; [apply rnd_float|].
    assert (0 <= rnd (float_of_int (2 * k * (k + 1)) / float_of_int (Z.max n (k + 2) - k - 1))); [|lra].
    apply rnd_pos. apply Rmult_le_pos; [apply int_pos; nia|]. apply Rlt_le, Rinv_0_lt_compat.
    assert (1 <= float_of_int (Z.max n (k + 2) - k - 1)) by (apply int_ge1; lia). lra.
  - intros k k' n K K'. unfold growth_f. destruct (Z.ltb_spec n (minpoints m (k + k'))) as [L|L]; [reflexivity|].
    specialize (MM k (k + k')%Z ltac:(lia)). rewrite Z.max_l by lia. unfold Rltb. destruct (Rlt_dec _ 0) as [B|B]; [|reflexivity]. exfalso.
    assert (0 <= rnd (penalty_f m (k + k') n - penalty_f m k n)); [|lra]. apply rnd_pos.
    pose proof (penalty_mono m k (k + k') n n Hm ltac:(lia) ltac:(lia) ltac:(lia) ltac:(lia)). lra.
  - intros k k' n c c' C. unfold growth_f. destruct (n <? minpoints m (k + k'))%Z; [discriminate|]. unfold Rltb.
    destruct (Rlt_dec _ c) as [A|A]; [|discriminate]. destruct (Rlt_dec _ c') as [B|B]; [reflexivity|lra].
Qed.
Print Assumptions C234_criteria_in_double_precision.

Lemma int_exact j : (0 <= j)%Z -> IZR j <= bpow radix2 52 -> float_of_int j = IZR j.
Proof.
  intros J L. unfold float_of_int. apply rnd_id. replace (IZR j) with (F2R (Float radix2 j 0)) by (unfold F2R; cbn; lra).
  apply generic_format_FLT. exists (Float radix2 j 0); [reflexivity| |cbn; lia]. cbn [Fnum]. change (bpow radix2 52) with (IZR (2 ^ 52)) in L. apply le_IZR in L.
  rewrite Z.abs_eq by lia. change (Zpower radix2 53) with (2 ^ 53)%Z. lia.
Qed.
(** Below 2^52 AIC sees every parameter. *)
Theorem C234_parameter_counts :
  forall k n c, (0 <= k)%Z -> 0 <= c -> c + IZR (2 * (k + 1)) <= bpow radix2 52 -> stat_f AIC k n c < stat_f AIC (k + 1) n c.
Proof.
  intros k n c K P B. unfold stat_f. cbn [penalty_f].
  pose proof int_exact as I.
  assert (K2 : IZR (2 * k) = IZR (2 * (k + 1)) - 2) by (rewrite !mult_IZR, plus_IZR; lra).
  assert (K0 : 0 <= IZR (2 * k)) by (apply (IZR_le 0); lia).
  rewrite !I by (lia || lra).
  pose proof (rnd_error (c + IZR (2 * k)) 52 ltac:(lia)) as E1. pose proof (rnd_error (c + IZR (2 * (k + 1))) 52 ltac:(lia)) as E2.
  rewrite Rabs_right in E1 by lra. rewrite (Rabs_right (c + IZR (2 * (k + 1)))) in E2 by lra. specialize (E1 ltac:(lra)). specialize (E2 ltac:(lra)).
  apply Rabs_le_inv in E1, E2. change (bpow radix2 (52 - 53)) with (/ 2) in E1, E2.
  lra.
Qed.
Print Assumptions C234_parameter_counts.
Example C234_nonvacuous :
  (minpoints AICc 3 <= 10)%Z /\ (0 <= 2 <= 3)%Z /\ growth_f AIC 3 3 10 7 = true /\ 5 + IZR (2 * (3 + 1)) <= bpow radix2 52.
Proof.
  split; [cbn; lia|]. split; [lia|]. split; [|cbn; lra]. unfold growth_f. cbn [minpoints]. change (10 <? 1)%Z with false. cbv iota. cbn [penalty_f].
  change (2 * (3 + 3))%Z with 12%Z. change (2 * 3)%Z with 6%Z. rewrite (int_exact 12) by (lia || (cbn; lra)). rewrite (int_exact 6) by (lia || (cbn; lra)).
  rewrite <- minus_IZR. change (12 - 6)%Z with 6%Z. change (rnd (IZR 6)) with (float_of_int 6). rewrite (int_exact 6) by (lia || (cbn; lra)).
  unfold Rltb. destruct (Rlt_dec 6 7) as [L|L]; [reflexivity|lra].
Qed.

(** *** C235 *)
Lemma swallowed c p : is_float c -> bpow radix2 (-1000) <= c -> 0 <= p <= c * bpow radix2 (-54) -> rnd (c + p) = c.
Proof.
  intros F L P. assert (C : 0 < c) by (eapply Rlt_le_trans; [apply bpow_gt_0|exact L]).
  apply Rle_antisym; [|apply rnd_down; [exact F|lra]]. apply round_N_le_midp; [exact fexp_ok|exact F|].
  rewrite succ_eq_pos by lra.
  assert (UL : c * u < ulp radix2 fexp64 c).
  { rewrite ulp_neq_0 by lra. unfold cexp, fexp64, FLT_exp.
    assert (M : (-1000 < mag radix2 c)%Z) by (apply mag_gt_bpow; rewrite Rabs_right by lra; exact L).
    rewrite Z.max_l by lia. unfold Zminus. rewrite bpow_plus. fold u. apply Rmult_lt_compat_r; [apply bpow_gt_0|].
    eapply Rle_lt_trans; [apply Rle_abs|]. apply bpow_mag_gt. }
  assert (H : u = 2 * bpow radix2 (-54)) by (unfold u; change (-53)%Z with (1 + -54)%Z; rewrite bpow_plus; reflexivity).
  rewrite H in UL. lra.
Qed.
(** Expectation: of two models with the same chi-square the one with fewer parameters has the
    smaller AIC, whatever the size of chi-square.  Violated in double precision:
    for every number of parameters there are values of chi-square from which on every smaller
    number of parameters has the same AIC, chi-square itself, so the evaluators call the
    models equal and neither is better; while adding any number of parameters is then judged
    to be justified. *)
Theorem C235_parameters_not_counted_refuted :
  forall k n c, (0 <= k)%Z -> (1 <= n)%Z -> is_float c -> bpow radix2 56 * (IZR k + 1) <= c ->
  forall k', (0 <= k' <= k)%Z -> stat_f AIC k' n c = c /\ (forall j, (0 <= j <= k - k')%Z -> growth_f AIC k' j n c = true).
Proof.
  intros k n c K N F C k' K'.
  assert (K0 : 0 <= IZR k) by (apply (IZR_le 0); lia). assert (B : 0 < bpow radix2 56) by apply bpow_gt_0.
  assert (CP : bpow radix2 56 <= c).
  { eapply Rle_trans; [|exact C]. rewrite <- (Rmult_1_r (bpow radix2 56)) at 1. apply Rmult_le_compat_l; lra. }
  assert (I : forall j, (0 <= j <= k)%Z -> 0 <= float_of_int (2 * j) <= 4 * IZR k).
  { intros j J. split; [apply int_pos; lia|]. apply Rle_trans with (float_of_int (2 * k)); [apply int_le; lia|].
    destruct (Z.eq_dec k 0) as [->|NZ]; [change (float_of_int (2 * 0)) with (rnd 0); rewrite rnd_0; lra|].
    assert (K1 : 1 <= IZR k) by (apply (IZR_le 1); lia). unfold float_of_int. rewrite mult_IZR.
    pose proof (rnd_rel (2 * IZR k)) as R. rewrite Rabs_right in R by lra. pose proof u_small as U.
    assert (R1 : bpow radix2 (-1022) <= 2 * IZR k) by (apply Rle_trans with (bpow radix2 0); [apply bpow_le; lia|cbn; lra]).
    specialize (R R1). apply Rabs_le_inv in R. assert (u * (2 * IZR k) <= 1 * (2 * IZR k)) by (apply Rmult_le_compat_r; lra). lra. }
  assert (S : 4 * IZR k <= c * bpow radix2 (-54)).
  { apply Rle_trans with (bpow radix2 56 * (IZR k + 1) * bpow radix2 (-54)); [|apply Rmult_le_compat_r; [apply bpow_ge_0|exact C]].
    replace (bpow radix2 56 * (IZR k + 1) * bpow radix2 (-54)) with (bpow radix2 (56 + -54) * (IZR k + 1)) by (rewrite bpow_plus; ring).
    change (bpow radix2 (56 + -54)) with 4. lra. }
  split.
  - unfold stat_f. cbn [penalty_f]. apply swallowed; [exact F| |].
    + eapply Rle_trans; [|exact CP]. apply bpow_le. lia.
    + specialize (I k' K'). lra.
  - intros j J. unfold growth_f. cbn [minpoints]. destruct (Z.ltb_spec n 1); [lia|]. cbn [penalty_f]. unfold Rltb. destruct (Rlt_dec _ c) as [L|L]; [reflexivity|].
    exfalso. apply L. pose proof (I k' K') as A. pose proof (I (k' + j)%Z ltac:(lia)) as A'.
    apply Rle_lt_trans with (float_of_int (2 * (k' + j))); [apply rnd_up; [apply rnd_float|lra]|].
    apply Rle_lt_trans with (4 * IZR k); [lra|]. apply Rlt_le_trans with (bpow radix2 56 * (IZR k + 1)); [|exact C].
    apply Rlt_le_trans with (4 * (IZR k + 1)); [lra|]. apply Rmult_le_compat_r; [lra|]. cbn. lra.
Qed.
Print Assumptions C235_parameters_not_counted_refuted.
Example C235_nonvacuous : is_float (bpow radix2 60) /\ bpow radix2 56 * (IZR 15 + 1) <= bpow radix2 60.
Proof. split; [apply is_bpow; lia|]. cbn. lra. Qed.

(** *** C236: Akaike weights and probabilities *)
(** np.exp: between 0 and 1 for negative numbers, 1 at 0, a double, not decreasing. *)
Definition good_exp (exp_f : R -> R) : Prop :=
  exp_f 0 = 1 /\ (forall x, x <= 0 -> is_float (exp_f x) /\ 0 <= exp_f x <= 1) /\ (forall x y, x <= y <= 0 -> exp_f x <= exp_f y).
Lemma list_min_spec l : forall a, (In (list_min a l) (a :: l)) /\ forall x, In x (a :: l) -> list_min a l <= x.
Proof.
  induction l as [|b l IH]; intros a; cbn [list_min]; [split; [now left|intros x [->|[]]; lra]|].
  destruct (IH (Rmin a b)) as [I L]. split.
  - destruct I as [I|I]; [|right; now right]. rewrite <- I. unfold Rmin. destruct (Rle_dec a b); [now left|right; now left].
  - intros x [->|[->|H]].
    + eapply Rle_trans; [apply L; now left|apply Rmin_l].
    + eapply Rle_trans; [apply L; now left|apply Rmin_r].
    + apply L. now right.
Qed.
Lemma weight_range exp_f b s : good_exp exp_f -> b <= s -> nonneg_float (weight_f exp_f b s) /\ weight_f exp_f b s <= 1.
Proof.
  intros (_ & E & _) L. unfold weight_f. assert (A : rnd (- rnd (s - b) / 2) <= 0).
  { apply rnd_up; [apply is_0|]. pose proof (rnd_pos (s - b) ltac:(lra)). lra. }
  destruct (E _ A) as (F & P). split; [split; [exact F|apply P]|apply P].
Qed.
Lemma weight_order exp_f b s t : good_exp exp_f -> b <= s <= t -> weight_f exp_f b t <= weight_f exp_f b s.
Proof.
  intros (_ & _ & M) L. unfold weight_f. apply M. split.
  - apply rnd_le. pose proof (rnd_le (s - b) (t - b) ltac:(lra)). lra.
  - apply rnd_up; [apply is_0|]. pose proof (rnd_pos (s - b) ltac:(lra)). lra.
Qed.
Lemma weight_best exp_f b : good_exp exp_f -> weight_f exp_f b b = 1.
Proof.
  intros (O & _). unfold weight_f. replace (b - b) with 0 by ring. rewrite rnd_0. replace (- 0 / 2) with 0 by field. now rewrite rnd_0.
Qed.
Lemma total_quotients t ws : Forall (fun w => 0 <= w <= t) ws -> 1 <= t -> Rabs (total (probs_f ws t) - total ws / t) <= INR (length ws) * u.
Proof.
  intros F T. induction F as [|w ws W F IH]; [cbn; replace (0 - 0 / t) with 0 by (field; lra); rewrite Rabs_R0; lra|].
  change (total (probs_f (w :: ws) t)) with (rnd (w / t) + total (probs_f ws t)). change (total (w :: ws)) with (w + total ws). cbn [length]. rewrite S_INR.
  assert (Q : 0 <= w / t <= 1).
  { split; [apply Rmult_le_pos; [lra|apply Rlt_le, Rinv_0_lt_compat; lra]|]. apply Rmult_le_reg_r with t; [lra|]. unfold Rdiv. rewrite Rmult_assoc, Rinv_l; lra. }
  pose proof (rnd_error1 (w / t)) as E. rewrite Rabs_right in E by lra. specialize (E (proj2 Q)).
  replace ((w + total ws) / t) with (w / t + total ws / t) by (field; lra). apply Rabs_le_inv in E, IH. apply Rabs_le. lra.
Qed.

(** The Akaike weights and probabilities computed in double precision, for whatever order of
    summation: one weight per model, all between 0 and 1, that of the models with the lowest
    statistic exactly 1; the probabilities are between 0 and 1; a model with a lower
    statistic never has the lower weight or probability; and the probabilities add up to 1
    with an error of at most n * 2^-53 + (1 + 2^-52)^(n-1) - 1. *)
Theorem C236_akaike_in_double_precision :
  forall exp_f stats t, good_exp exp_f -> stats <> [] -> summed (weights_f exp_f stats) t ->
  let ws := weights_f exp_f stats in let ps := probs_f ws t in
  length ws = length stats /\ length ps = length stats /\
  (forall w, In w ws -> 0 <= w <= 1) /\ (forall p, In p ps -> 0 <= p <= 1) /\
  (forall i s, nth_error stats i = Some s -> (forall s', In s' stats -> s <= s') -> nth_error ws i = Some 1) /\
  (forall i j s s', nth_error stats i = Some s -> nth_error stats j = Some s' -> s <= s' ->
     exists w w' p p', nth_error ws i = Some w /\ nth_error ws j = Some w' /\ nth_error ps i = Some p /\ nth_error ps j = Some p' /\ w' <= w /\ p' <= p) /\
  Rabs (total ps - 1) <= INR (length stats) * u + ((1 + 2 * u) ^ (length stats - 1) - 1).
Proof.
  intros exp_f stats t G NE S. destruct stats as [|a r]; [contradiction|]. clear NE. cbn [weights_f] in S |- *.
  set (st := a :: r) in *. destruct (list_min_spec r a) as [MI ML]. fold st in MI, ML. set (b := list_min a r) in *.
  set (ws := map (weight_f exp_f b) st) in *. cbv zeta. set (ps := probs_f ws t).
  assert (W : Forall (fun w => nonneg_float w /\ w <= 1) ws) by (apply Forall_map, Forall_forall; intros s Hs; apply weight_range; [exact G|now apply ML]).
  assert (WN : Forall nonneg_float ws) by (eapply Forall_impl; [|exact W]; now intros ? [? _]).
  destruct (summed_facts _ _ S WN) as ((TF & TP) & NT & MT).
  assert (T1 : 1 <= t).
  { rewrite Forall_forall in MT. apply MT. rewrite <- (weight_best exp_f b G). now apply in_map. }
  assert (LW : length ws = length st) by apply map_length.
  assert (R : Forall (fun w => 0 <= w <= t) ws).
  { apply Forall_forall. intros w Hw. rewrite Forall_forall in MT, WN. split; [apply WN, Hw|now apply MT]. }
  assert (Q : forall w, 0 <= w <= t -> 0 <= rnd (w / t) <= 1).
  { intros w Hw. split; [apply rnd_pos, Rmult_le_pos; [lra|apply Rlt_le, Rinv_0_lt_compat; lra]|]. apply rnd_up; [exact is_1|].
    apply Rmult_le_reg_r with t; [lra|]. unfold Rdiv. rewrite Rmult_assoc, Rinv_l; lra. }
  split; [exact LW|]. split; [unfold ps, probs_f; now rewrite map_length|]. split.
  { intros w Hw. rewrite Forall_forall in W. specialize (W w Hw) as [[_ P] L]. lra. }
  split.
  { intros p Hp. unfold ps, probs_f in Hp. apply in_map_iff in Hp. destruct Hp as (w & <- & Hw). apply Q. rewrite Forall_forall in R. now apply R. }
  split.
  { intros i s E L. unfold ws. rewrite (map_nth_error _ _ _ E). f_equal.
    assert (E' : s = b) by (apply Rle_antisym; [now apply L|apply ML; eapply nth_error_In; exact E]). rewrite E'. now apply weight_best. }
  split.
  { intros i j s s' E E' L.
    assert (B : b <= s) by (apply ML; eapply nth_error_In; exact E).
    exists (weight_f exp_f b s), (weight_f exp_f b s'), (rnd (weight_f exp_f b s / t)), (rnd (weight_f exp_f b s' / t)).
    assert (H1 : nth_error ws i = Some (weight_f exp_f b s)) by (unfold ws; now apply map_nth_error).
    assert (H2 : nth_error ws j = Some (weight_f exp_f b s')) by (unfold ws; now apply map_nth_error).
    split; [exact H1|]. split; [exact H2|]. split; [unfold ps, probs_f; now rewrite (map_nth_error _ _ _ H1)|]. split; [unfold ps, probs_f; now rewrite (map_nth_error _ _ _ H2)|].
    assert (O : weight_f exp_f b s' <= weight_f exp_f b s) by (apply weight_order; [exact G|lra]). split; [exact O|].
    apply rnd_le. unfold Rdiv. apply Rmult_le_compat_r; [apply Rlt_le, Rinv_0_lt_compat; lra|exact O]. }
  pose proof (total_quotients t ws R T1) as E. rewrite LW in E, NT. destruct NT as (TT & _ & C & D).
  set (k := (length st - 1)%nat) in *. set (g := (1 + 2 * u) ^ k) in *. assert (G1 : 1 <= g) by apply grow_ge1.
  assert (X : Rabs (total ws / t - 1) <= g - 1).
  { replace (total ws / t - 1) with ((total ws - t) * / t) by (field; lra). rewrite Rabs_mult, (Rabs_right (/ t)) by (apply Rle_ge, Rlt_le, Rinv_0_lt_compat; lra).
    apply Rmult_le_reg_r with t; [lra|]. rewrite Rmult_assoc, Rinv_l, Rmult_1_r by lra. apply Rabs_le. split; [|lra].
    (* t - total <= (g - 1) * total <= (g - 1) * t when total <= t *)
    destruct (Rle_dec (total ws) t) as [L|L]; [|assert (0 <= (g - 1) * t) by (apply Rmult_le_pos; lra); lra].
    assert ((g - 1) * total ws <= (g - 1) * t) by (apply Rmult_le_compat_l; lra). lra. }
  fold ps in E. apply Rabs_le_inv in E, X. apply Rabs_le. lra.
Qed.
Print Assumptions C236_akaike_in_double_precision.
Example C236_nonvacuous : good_exp (fun x => rnd (exp x)) /\ exists t, summed (weights_f (fun x => rnd (exp x)) [3; 1; 2]) t.
Proof.
  split; [|apply summed_exists]. split; [rewrite exp_0; apply rnd_id, is_1|]. split.
  - intros x X. split; [apply rnd_float|]. pose proof (exp_pos x). split; [apply rnd_pos; lra|]. apply rnd_up; [exact is_1|].
    rewrite <- exp_0. destruct X as [X|X]; [left; now apply exp_increasing|right; now rewrite X].
  - intros x y [H _]. apply rnd_le. destruct H as [H|H]; [left; now apply exp_increasing|right; now rewrite H].
Qed.

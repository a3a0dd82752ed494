(** C240: how far the order of models by the computed criterion can be wrong. *)
From Coq Require Import Reals Lra.
From Flocq Require Import Core.
From Verif Require Import Prelude Evaluators FloatWidth FloatWidthProps FloatEval FloatEvalProps.
Open Scope R_scope.
#[local] Existing Instance prec_ok.
#[local] Existing Instance fexp_ok.
#[local] Existing Instance mono_ok.

(** ** Specification *)
(** The criterion in exact arithmetic, of k parameters and the points (expected, observed,
    error): sum of the squares of the weighted deviations, plus 2k, plus for AICc the
    correction 2k(k+1)/(n-k-1), where n is the number of points but at least k+2. *)
Definition criterion (aicc : bool) (k : Z) (ps : list (R * R * R)) : R :=
  let n := IZR (Z.max (Z.of_nat (length ps)) (k + 2)) in
  fold_right Rplus 0 (map (fun p => (fst (fst p) - snd (fst p)) ^ 2 / snd p ^ 2) ps)
  + (2 * IZR k + if aicc then 2 * IZR k * (IZR k + 1) / (n - IZR k - 1) else 0).

(** ** Proofs *)
Lemma near_int j : (0 <= j)%Z -> near 1 (IZR j) (float_of_int j).
Proof.
  intros J. unfold float_of_int. destruct (Z.eq_dec j 0) as [->|N]; [rewrite rnd_0; apply near_refl; lra|].
  apply near_rnd. apply Rle_trans with (bpow radix2 0); [apply bpow_le; lia|]. apply (IZR_le 1). lia.
Qed.
Lemma near_penalty (aicc : bool) k n : (0 <= k)%Z -> (k + 2 <= n)%Z -> (n <= 2 ^ 53)%Z ->
  near 4 (2 * IZR k + if aicc then 2 * IZR k * (IZR k + 1) / (IZR n - IZR k - 1) else 0) (penalty_f (if aicc then AICc else AIC) k n).
Proof.
  intros K N B. destruct aicc; cbn [penalty_f].
  2:{ rewrite Rplus_0_r, <- mult_IZR. eapply near_weaken; [|apply near_int; lia]. lia. }
  replace (2 * IZR k * (IZR k + 1)) with (IZR (2 * k * (k + 1))) by (rewrite !mult_IZR, plus_IZR; ring).
  replace (IZR n - IZR k - 1) with (IZR (n - k - 1)) by (rewrite !minus_IZR; ring).
  rewrite <- mult_IZR. set (a := (2 * k * (k + 1))%Z). set (d := (n - k - 1)%Z).
  assert (A0 : (0 <= a)%Z) by (unfold a; nia). assert (D1 : (1 <= d)%Z) by (unfold d; lia).
  pose proof (int_ge1 d D1) as FD. pose proof (int_pos a A0) as FA.
  assert (Q : near 2 (IZR a / IZR d) (float_of_int a / float_of_int d)).
  { apply (near_mult 1 1); [now apply near_int|]. apply near_inv; [apply (IZR_lt 0); lia|lra|apply near_int; lia]. }
  assert (QR : near 3 (IZR a / IZR d) (rnd (float_of_int a / float_of_int d))).
  { destruct (Z.eq_dec a 0) as [E|E].
    - rewrite E. unfold float_of_int at 1. rewrite rnd_0. unfold Rdiv. rewrite !Rmult_0_l, rnd_0. apply near_refl. lra.
    - apply (near_trans 2 1 _ _ _ Q). apply near_rnd.
      pose proof (int_ge1 a ltac:(lia)) as FA1. assert (FDU : float_of_int d <= bpow radix2 53).
      { apply rnd_up; [apply is_bpow; lia|]. change (bpow radix2 53) with (IZR (2 ^ 53)). apply IZR_le. unfold d. lia. }
      apply Rle_trans with (bpow radix2 (-53)); [apply bpow_le; lia|]. change (-53)%Z with (- (53))%Z. rewrite bpow_opp.
      rewrite <- (Rmult_1_l (/ bpow radix2 53)). unfold Rdiv. apply Rmult_le_compat; [lra|apply Rlt_le, Rinv_0_lt_compat, bpow_gt_0|exact FA1|].
      apply Rinv_le_contravar; [lra|exact FDU]. }
  apply (near_trans 3 1 _ (float_of_int (2 * k) + rnd (float_of_int a / float_of_int d))).
  - apply near_plus; [|exact QR]. eapply near_weaken; [|apply near_int; lia]. lia.
  - apply near_rnd_plus; [apply rnd_float|apply rnd_float|apply int_pos; lia|apply QR].
Qed.

Lemma near_stat (aicc : bool) k ps c : (0 <= k)%Z -> (Z.of_nat (length ps) <= 2 ^ 52)%Z -> (k <= 2 ^ 52)%Z -> Forall regular ps -> chi_squared_f ps c ->
  near (length ps + 5) (criterion aicc k ps) (stat_f (if aicc then AICc else AIC) k (Z.of_nat (length ps)) c).
Proof.
  intros K B KB RG S. unfold stat_f, criterion. set (m := if aicc then AICc else AIC).
  assert (HS : forall p, In p ps -> 0 < sq (snd p)).
  { intros [[e o] s] Hp. rewrite Forall_forall in RG. destruct (RG _ Hp) as (P & N & _). cbn [snd].
    pose proof (near_sq s N) as (_ & A & C & _). destruct A as [A|A]; [exact A|]. rewrite <- A in C. assert (0 < s ^ 2) by now apply pow_lt. lra. }
  destruct (C233_chi_squared_in_double_precision ps c HS S) as (FC & PC & _ & _ & NC). rewrite Forall_forall in RG. specialize (NC RG).
  set (chi := fold_right Rplus 0 _). assert (EC : chi = chi_squared ps).
  { unfold chi, chi_squared. f_equal. apply map_ext. now intros [[e o] s]. }
  assert (N1 : near (length ps + 4) chi c).
  { rewrite EC. destruct NC as [N1 N2]. split; [|split; [exact PC|split; assumption]].
    apply Rmult_le_reg_r with ((1 + 2 * u) ^ (length ps + 4)); [apply grow_pos|]. lra. }
  (* the penalty is the same for the number of points AIC uses *)
  assert (EP : penalty_f m k (Z.max (Z.of_nat (length ps)) (minpoints m k)) = penalty_f m k (Z.max (Z.of_nat (length ps)) (k + 2))) by (unfold m; destruct aicc; reflexivity).
  rewrite EP. set (n := Z.max (Z.of_nat (length ps)) (k + 2)).
  pose proof (near_penalty aicc k n K ltac:(unfold n; lia) ltac:(unfold n; lia)) as N2. fold m in N2.
  replace (length ps + 5)%nat with (length ps + 4 + 1)%nat by lia.
  eapply near_trans; [apply near_plus; [exact N1|eapply near_weaken; [|exact N2]; lia]|].
  apply near_rnd_plus; [exact FC| |exact PC|apply N2].
  unfold m. destruct aicc; cbn [penalty_f]; apply rnd_float.
Qed.

Lemma grow_linear N : IZR (Z.of_nat N) <= bpow radix2 51 -> (1 + 2 * u) ^ N <= 1 + IZR (Z.of_nat N) * bpow radix2 (-51).
Proof.
  assert (U : bpow radix2 (-51) = 2 * (2 * u)) by (unfold u; change (-51)%Z with (2 + -53)%Z; rewrite bpow_plus; change (bpow radix2 2) with 4; ring).
  rewrite U. assert (U0 : 0 < u) by apply bpow_gt_0. assert (X : bpow radix2 51 * (2 * (2 * u)) = 1).
  { rewrite <- U, <- bpow_plus. reflexivity. }
  induction N as [|N IH]; intros H; [cbn; lra|]. rewrite Nat2Z.inj_succ, succ_IZR in *.
  set (z := IZR (Z.of_nat N)) in *. assert (Z0 : 0 <= z) by (apply (IZR_le 0); lia).
  cbn [pow]. specialize (IH ltac:(lra)).
  apply Rle_trans with ((1 + 2 * u) * (1 + z * (2 * (2 * u)))); [apply Rmult_le_compat_l; [lra|exact IH]|].
  assert (W : z * (2 * (2 * u)) <= 1) by (rewrite <- X; apply Rmult_le_compat_r; lra).
  assert (V : 2 * u * (z * (2 * (2 * u))) <= 2 * u * 1) by (apply Rmult_le_compat_l; lra). lra.
Qed.

(** Two models with k and k' parameters, compared by the criterion (AIC or AICc) computed in
    double precision: the computed criterion differs from the exact one by at most
    a factor of 1 + (n + 5) * 2^-51; a model that is judged better is better or worse by at
    most a factor of 1 + (n + n' + 10) * 2^-51, and a model that is better by more than that
    is judged better; n and n' are the numbers of points. *)
Theorem C240_order_of_models_in_double_precision :
  forall (aicc : bool) (k k' : Z) (ps ps' : list (R * R * R)) (c c' : R),
  let m := if aicc then AICc else AIC in
  (0 <= k <= 2 ^ 50)%Z -> (0 <= k' <= 2 ^ 50)%Z -> (Z.of_nat (length ps) <= 2 ^ 49)%Z -> (Z.of_nat (length ps') <= 2 ^ 49)%Z ->
  (forall p, In p (ps ++ ps') -> regular p) -> chi_squared_f ps c -> chi_squared_f ps' c' ->
  let stat := stat_f m k (Z.of_nat (length ps)) c in let stat' := stat_f m k' (Z.of_nat (length ps')) c' in
  let tol n := 1 + IZR n * bpow radix2 (-51) in
  let n1 := (Z.of_nat (length ps) + 5)%Z in let n2 := (Z.of_nat (length ps) + Z.of_nat (length ps') + 10)%Z in
  (stat <= criterion aicc k ps * tol n1 /\ criterion aicc k ps <= stat * tol n1) /\
  (stat <= stat' -> criterion aicc k ps <= criterion aicc k' ps' * tol n2) /\
  (criterion aicc k ps * tol n2 < criterion aicc k' ps' -> stat < stat').
Proof.
  intros aicc k k' ps ps' c c' m K K' L L' RG S S' stat stat' tol n1 n2.
  assert (R1 : Forall regular ps) by (apply Forall_forall; intros p Hp; apply RG, in_or_app; now left).
  assert (R2 : Forall regular ps') by (apply Forall_forall; intros p Hp; apply RG, in_or_app; now right).
  pose proof (near_stat aicc k ps c ltac:(lia) ltac:(lia) ltac:(lia) R1 S) as A. fold m stat in A.
  pose proof (near_stat aicc k' ps' c' ltac:(lia) ltac:(lia) ltac:(lia) R2 S') as A'. fold m stat' in A'.
  pose proof (near_sym _ _ _ A') as A2'.
  set (x := criterion aicc k ps) in *. set (x' := criterion aicc k' ps') in *.
  assert (T : forall N, (Z.of_nat N <= 2 ^ 51)%Z -> (1 + 2 * u) ^ N <= tol (Z.of_nat N)).
  { intros N H. apply grow_linear. change (bpow radix2 51) with (IZR (2 ^ 51)). now apply IZR_le. }
  pose proof (T (length ps + 5)%nat ltac:(lia)) as T1. replace (Z.of_nat (length ps + 5)) with n1 in T1 by (unfold n1; lia).
  pose proof (T ((length ps + 5) + (length ps' + 5))%nat ltac:(lia)) as T2. replace (Z.of_nat ((length ps + 5) + (length ps' + 5))) with n2 in T2 by (unfold n2; lia).
  rewrite pow_add in T2. set (g := (1 + 2 * u) ^ (length ps + 5)) in *. set (g' := (1 + 2 * u) ^ (length ps' + 5)) in *.
  assert (G : 1 <= g) by apply grow_ge1. assert (G' : 1 <= g') by apply grow_ge1.
  destruct A as (X & P & A1 & A2). destruct A' as (X' & P' & B1 & B2). fold g in A1, A2. fold g' in B1, B2.
  assert (M : forall z t t', 0 <= z -> t <= t' -> z * t <= z * t') by (intros; now apply Rmult_le_compat_l).
  split; [split|split].
  - eapply Rle_trans; [exact A2|now apply M].
  - eapply Rle_trans; [exact A1|now apply M].
  - intros H. apply Rle_trans with (x' * (g * g')); [|now apply M].
    apply Rle_trans with (stat * g); [exact A1|]. replace (x' * (g * g')) with (x' * g' * g) by ring. apply Rmult_le_compat_r; lra.
  - intros H. apply Rnot_le_lt. intros H'. 
    assert (x' <= x * (g * g')).
    { apply Rle_trans with (stat' * g'); [exact B1|]. replace (x * (g * g')) with (x * g * g') by ring. apply Rmult_le_compat_r; lra. }
    assert (x * (g * g') <= x * tol n2) by now apply M. lra.
Qed.
Print Assumptions C240_order_of_models_in_double_precision.
(** Whether k' more parameters are justified is decided in double precision as it is in exact
    arithmetic, unless the criterion is within a factor of 1 + (n + 9) * 2^-51 of the
    penalty of a model with k + k' parameters and a perfect fit. *)
Theorem C240_growth_in_double_precision :
  forall (aicc : bool) (k k' : Z) (ps : list (R * R * R)) (c : R),
  let m := if aicc then AICc else AIC in let n := Z.of_nat (length ps) in
  (0 <= k)%Z -> (0 <= k')%Z -> (1 <= k + k' <= 2 ^ 50)%Z -> (n <= 2 ^ 49)%Z -> (if aicc then k + k' + 2 <= n else 1 <= n)%Z ->
  (forall p, In p ps -> regular p) -> chi_squared_f ps c ->
  let kt := IZR (k + k') in
  let perfect := 2 * kt + if aicc then 2 * kt * (kt + 1) / (IZR n - kt - 1) else 0 in
  let tol := 1 + IZR (n + 9) * bpow radix2 (-51) in
  (growth_f m k k' n c = false -> criterion aicc k ps <= perfect * tol) /\
  (growth_f m k k' n c = true -> perfect <= criterion aicc k ps * tol).
Proof.
  intros aicc k k' ps c m n K K' KK L LN RG S kt perfect tol.
  assert (RG' : Forall regular ps) by now apply Forall_forall.
  assert (HS : forall p, In p ps -> 0 < sq (snd p)).
  { intros [[e o] s] Hp. destruct (RG _ Hp) as (P & N & _). cbn [snd].
    pose proof (near_sq s N) as (_ & A & C & _). destruct A as [A|A]; [exact A|]. rewrite <- A in C. assert (0 < s ^ 2) by now apply pow_lt. lra. }
  destruct (C233_chi_squared_in_double_precision ps c HS S) as (FC & PC & _ & _ & NC). specialize (NC RG).
  set (chi := fold_right Rplus 0 (map (fun p => (fst (fst p) - snd (fst p)) ^ 2 / snd p ^ 2) ps)).
  assert (EC : chi = chi_squared ps) by (unfold chi, chi_squared; f_equal; apply map_ext; now intros [[e o] s]).
  assert (N1 : near (length ps + 4) chi c).
  { rewrite EC. destruct NC as [N1 N2]. split; [|split; [exact PC|split; assumption]].
    apply Rmult_le_reg_r with ((1 + 2 * u) ^ (length ps + 4)); [apply grow_pos|]. lra. }
  (* both penalties, at the number of points that is used *)
  set (nn := Z.max n (minpoints m k)).
  assert (EN : nn = n \/ aicc = false) by (unfold nn, m; destruct aicc; [left; cbn; lia|now right]).
  set (N := Z.max n (k + 2)).
  assert (EP : penalty_f m k nn = penalty_f m k N).
  { unfold N, nn, m. destruct aicc; [|reflexivity]. cbn [minpoints]. reflexivity. }
  set (N' := if aicc then n else (k + k' + 2)%Z).
  assert (EP' : penalty_f m (k + k') nn = penalty_f m (k + k') N') by (unfold N', m; destruct aicc; [destruct EN as [->|X]; [reflexivity|discriminate]|reflexivity]).
  pose proof (near_penalty aicc k N K ltac:(unfold N; lia) ltac:(unfold N; lia)) as P1.
  pose proof (near_penalty aicc (k + k') N' ltac:(lia) ltac:(unfold N'; destruct aicc; lia) ltac:(unfold N'; destruct aicc; lia)) as P2.
  fold m in P1, P2. rewrite <- EP in P1. rewrite <- EP' in P2.
  assert (PF : perfect = 2 * IZR (k + k') + (if aicc then 2 * IZR (k + k') * (IZR (k + k') + 1) / (IZR N' - IZR (k + k') - 1) else 0)).
  { unfold perfect, kt, N'. destruct aicc; reflexivity. }
  rewrite <- PF in P2. set (P := penalty_f m k nn) in *. set (P' := penalty_f m (k + k') nn) in *.
  assert (CR : criterion aicc k ps = chi + (2 * IZR k + (if aicc then 2 * IZR k * (IZR k + 1) / (IZR N - IZR k - 1) else 0))) by reflexivity.
  assert (T : near (length ps + 4) (criterion aicc k ps) (c + P)).
  { rewrite CR. apply near_plus; [exact N1|]. eapply near_weaken; [|exact P1]. lia. }
  assert (PP : 0 <= P <= P').
  { split; [apply P1|]. unfold P, P'. apply penalty_mono; [unfold m; destruct aicc; auto|lia|lia|unfold nn; lia|].
    unfold nn, m in *. destruct aicc; cbn [minpoints] in *; lia. }
  assert (P1' : 1 <= P').
  { unfold P', m. pose proof (int_ge1 (2 * (k + k')) ltac:(lia)) as I1. destruct aicc; cbn [penalty_f]; [|exact I1].
    apply rnd_down; [exact is_1|].
    assert (0 <= rnd (float_of_int (2 * (k + k') * (k + k' + 1)) / float_of_int (nn - (k + k') - 1))); [|lra].
    apply rnd_pos. apply Rmult_le_pos; [apply int_pos; nia|]. apply Rlt_le, Rinv_0_lt_compat.
    assert (1 <= float_of_int (nn - (k + k') - 1)); [|lra]. apply int_ge1. destruct EN as [->|X]; [lia|discriminate]. }
  pose proof (rnd_below (P' - P) P' ltac:(apply Rle_trans with (bpow radix2 0); [apply bpow_le; lia|exact P1']) ltac:(apply Rabs_le; lra)) as ED.
  apply Rabs_le_inv in ED. pose proof u_small as US. assert (U0 : 0 < u) by apply bpow_gt_0.
  assert (G9 : (1 + 2 * u) ^ (length ps + 4) * (1 + 2 * u) ^ 1 * (1 + 2 * u) ^ 4 <= tol).
  { rewrite <- !pow_add. eapply Rle_trans; [apply grow_linear; change (bpow radix2 51) with (IZR (2 ^ 51)); apply IZR_le; lia|]. apply Req_le. unfold tol. do 3 f_equal. unfold n. lia. }
  destruct T as (T0 & T0' & T1 & T2). destruct P2 as (Q0 & Q0' & Q1 & Q2).
  set (g4 := (1 + 2 * u) ^ 4) in *. set (gn := (1 + 2 * u) ^ (length ps + 4)) in *. rewrite pow_1 in G9.
  assert (GN : 1 <= gn) by apply grow_ge1. assert (G4 : 1 <= g4) by apply grow_ge1.
  assert (GR : growth_f m k k' n c = Rltb (rnd (P' - P)) c).
  { unfold growth_f. fold nn. fold P P'. destruct (Z.ltb_spec n (minpoints m (k + k'))) as [X|X]; [|reflexivity]. exfalso. unfold m in X. destruct aicc; cbn [minpoints] in X; lia. }
  rewrite GR. unfold Rltb. destruct (Rlt_dec (rnd (P' - P)) c) as [X|X]; split; intros Y; try discriminate; clear Y.
  - assert (H : P' <= (c + P) * (1 + 2 * u)).
    { assert (A : P' * (1 - u) <= c + P) by lra. assert (B : P' * (1 - u) * (1 + 2 * u) <= (c + P) * (1 + 2 * u)) by (apply Rmult_le_compat_r; lra).
      assert (C : 0 <= P' * (u * (1 - 2 * u))) by (apply Rmult_le_pos; [lra|apply Rmult_le_pos; lra]). lra. }
    apply Rle_trans with (criterion aicc k ps * (gn * (1 + 2 * u) * g4)); [|now apply Rmult_le_compat_l].
    apply Rle_trans with (P' * g4); [exact Q1|]. apply Rle_trans with ((c + P) * (1 + 2 * u) * g4); [apply Rmult_le_compat_r; lra|].
    replace (criterion aicc k ps * (gn * (1 + 2 * u) * g4)) with (criterion aicc k ps * gn * (1 + 2 * u) * g4) by ring.
    apply Rmult_le_compat_r; [lra|]. apply Rmult_le_compat_r; lra.
  - assert (H : c + P <= P' * (1 + 2 * u)) by lra.
    apply Rle_trans with (perfect * (gn * (1 + 2 * u) * g4)); [|now apply Rmult_le_compat_l].
    apply Rle_trans with ((c + P) * gn); [exact T1|]. apply Rle_trans with (P' * (1 + 2 * u) * gn); [apply Rmult_le_compat_r; lra|].
    replace (perfect * (gn * (1 + 2 * u) * g4)) with (perfect * g4 * (1 + 2 * u) * gn) by ring.
    apply Rmult_le_compat_r; [lra|]. apply Rmult_le_compat_r; lra.
Qed.
Print Assumptions C240_growth_in_double_precision.
Example C240_nonvacuous :
  exists c c', chi_squared_f [(1, 0, 1); (2, 2, 1)] c /\ chi_squared_f [(2, 0, 1)] c' /\ (forall p, In p ([(1, 0, 1); (2, 2, 1)] ++ [(2, 0, 1)]) -> regular p) /\
  criterion false 1 [(1, 0, 1); (2, 2, 1)] = 3 /\ criterion false 0 [(2, 0, 1)] = 4 /\ stat_f AIC 1 2 c < stat_f AIC 0 1 c'.
Proof.
  destruct (summed_exists (map term_f [(1, 0, 1); (2, 2, 1)])) as [c S]. destruct (summed_exists (map term_f [(2, 0, 1)])) as [c' S'].
  assert (S1 : sq 1 = 1) by (unfold sq; rewrite Rmult_1_r; apply rnd_id, is_1).
  assert (N1 : normal 1) by (unfold normal; rewrite Rabs_right by lra; change 1 with (bpow radix2 0); apply bpow_le; lia).
  assert (N4 : normal (bpow radix2 2)) by (unfold normal; rewrite Rabs_right by (apply Rle_ge, bpow_ge_0); apply bpow_le; lia).
  assert (N2 : normal (bpow radix2 1)) by (unfold normal; rewrite Rabs_right by (apply Rle_ge, bpow_ge_0); apply bpow_le; lia).
  assert (D1 : rnd (1 - 0) = 1) by (rewrite Rminus_0_r; apply rnd_id, is_1).
  assert (D2 : rnd (2 - 0) = 2) by (rewrite Rminus_0_r; apply rnd_id, is_2).
  assert (S2 : sq 2 = bpow radix2 2).
  { unfold sq. replace (2 * 2) with (bpow radix2 2) by (cbn; ring). apply rnd_id, is_bpow. lia. }
  assert (RG : forall p, In p ([(1, 0, 1); (2, 2, 1)] ++ [(2, 0, 1)]) -> regular p).
  { intros p [<-|[<-|[<-|[]]]]; unfold regular; (split; [lra|]); (split; [now replace (1 ^ 2) with 1 by ring|]).
    - right. rewrite D1, S1. split; [now replace (1 - 0) with 1 by ring|]. split; [now replace (1 ^ 2) with 1 by ring|]. now replace (1 / 1) with 1 by field.
    - now left.
    - right. rewrite D2, S1, S2. split; [now replace (2 - 0) with (bpow radix2 1) by (cbn; ring)|]. split; [now replace (2 ^ 2) with (bpow radix2 2) by (cbn; ring)|].
      now replace (bpow radix2 2 / 1) with (bpow radix2 2) by field. }
  assert (C1 : criterion false 1 [(1, 0, 1); (2, 2, 1)] = 3) by (unfold criterion; cbn; field).
  assert (C2 : criterion false 0 [(2, 0, 1)] = 4) by (unfold criterion; cbn; field).
  exists c, c'. split; [exact S|]. split; [exact S'|]. split; [exact RG|]. split; [exact C1|]. split; [exact C2|].
  apply (C240_order_of_models_in_double_precision false 1 0 [(1, 0, 1); (2, 2, 1)] [(2, 0, 1)] c c'); try lia; try assumption; try (cbn; lia).
  cbv zeta. rewrite C1, C2. cbn [length Z.of_nat Pos.of_succ_nat Pos.succ]. cbn. lra.
Qed.

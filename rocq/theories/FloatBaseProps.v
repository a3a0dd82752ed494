(** C242-C244: baselines in floating-point arithmetic. *)
From Coq Require Import Reals Lra.
From Flocq Require Import Core.
From Verif Require Import Prelude FloatWidth FloatWidthProps FloatEvalProps FloatOrderProps FloatBase.
Open Scope R_scope.
#[local] Existing Instance prec_ok.
#[local] Existing Instance fexp_ok.
#[local] Existing Instance mono_ok.

(** *** C242: polynomials *)
(** ** Specification *)
(** The polynomial with the coefficients [pars], that of the highest power first. *)
Fixpoint polynomial (pars : list R) (r : R) : R :=
  match pars with [] => 0 | p :: t => p * r ^ length t + polynomial t r end.
(** No product of Horner's scheme is subnormal; [y] is the value so far. *)
Fixpoint no_underflow (y r : R) (pars : list R) : Prop :=
  match pars with [] => True | p :: t => (y * r = 0 \/ bpow radix2 (-1022) <= y * r) /\ no_underflow (rnd (rnd (y * r) + p)) r t end.

(** ** Proofs *)
Definition hstep (r y p : R) : R := rnd (rnd (y * r) + p).
Lemma horner_float r pars : forall y, is_float y -> is_float (fold_left (hstep r) pars y).
Proof. induction pars as [|p t IH]; intros y F; [exact F|]. cbn. apply IH. apply rnd_float. Qed.
Lemma hstep_mono r r' y y' p p' : 0 <= r -> r <= r' -> 0 <= y' \/ r = r' -> y <= y' -> p <= p' -> hstep r y p <= hstep r' y' p'.
Proof.
  intros R0 RR [Y|E] YY PP; unfold hstep; apply rnd_le; (apply Rplus_le_compat; [|exact PP]); apply rnd_le.
  - apply Rle_trans with (y' * r); [now apply Rmult_le_compat_r|now apply Rmult_le_compat_l].
  - subst r'. now apply Rmult_le_compat_r.
Qed.
Lemma horner_mono_pars r ps ps' : 0 <= r -> Forall2 Rle ps ps' -> forall y y', y <= y' -> fold_left (hstep r) ps y <= fold_left (hstep r) ps' y'.
Proof.
  intros R0 F. induction F as [|p p' ps ps' P F IH]; intros y y' Y; [exact Y|]. cbn [fold_left]. apply IH.
  apply hstep_mono; auto; lra.
Qed.
Lemma horner_pos r ps : 0 <= r -> Forall (fun p => 0 <= p) ps -> forall y, 0 <= y -> 0 <= fold_left (hstep r) ps y.
Proof.
  intros R0 F. induction F as [|p ps P F IH]; intros y Y; [exact Y|]. cbn [fold_left]. apply IH.
  unfold hstep. apply rnd_pos. pose proof (rnd_pos (y * r) ltac:(now apply Rmult_le_pos)). lra.
Qed.
Lemma horner_mono_r r r' ps : 0 <= r <= r' -> Forall (fun p => 0 <= p) ps -> forall y y', 0 <= y' -> y <= y' -> fold_left (hstep r) ps y <= fold_left (hstep r') ps y'.
Proof.
  intros R0 F. induction F as [|p ps P F IH]; intros y y' Y' Y; [exact Y|]. cbn [fold_left]. apply IH.
  - unfold hstep. apply rnd_pos. pose proof (rnd_pos (y' * r') ltac:(apply Rmult_le_pos; lra)). lra.
  - apply hstep_mono; try lra.
Qed.
Lemma horner_exact r ps : forall y, fold_left (fun y p => y * r + p) ps y = y * r ^ length ps + polynomial ps r.
Proof.
  induction ps as [|p t IH]; intros y; [cbn; ring|]. cbn [fold_left length polynomial]. rewrite IH. cbn [pow]. ring.
Qed.
Lemma horner_near r ps : 0 <= r -> Forall nonneg_float ps -> forall k x y, is_float y -> near k x y -> no_underflow y r ps ->
  near (k + 2 * length ps) (fold_left (fun y p => y * r + p) ps x) (fold_left (hstep r) ps y).
Proof.
  intros R0 F. induction F as [|p ps [PF P] F IH]; intros k x y FY N U; [cbn; now rewrite Nat.add_0_r|].
  cbn [fold_left length no_underflow] in *. destruct U as [U1 U2].
  replace (k + 2 * S (length ps))%nat with (k + 2 + 2 * length ps)%nat by lia. apply IH; [apply rnd_float| |exact U2].
  assert (NR : near k (x * r) (y * r)).
  { replace k with (k + 0)%nat by lia. apply near_mult; [exact N|now apply near_refl]. }
  assert (N1 : near (k + 1) (x * r) (rnd (y * r))).
  { eapply near_trans; [exact NR|]. destruct U1 as [Z|L]; [rewrite Z, rnd_0; apply near_refl; lra|now apply near_rnd]. }
  unfold hstep. replace (k + 2)%nat with (k + 1 + 1)%nat by lia.
  eapply near_trans; [apply near_plus; [exact N1|now apply near_refl]|].
  apply near_rnd_plus; [apply rnd_float|exact PF|apply N1|exact P].
Qed.

(** The value of a polynomial baseline in double precision: a double; 0 without parameters;
    at 0 exactly the last parameter; for nonnegative r not decreasing in any parameter; with
    nonnegative parameters nonnegative and not decreasing in r, and off by
    at most a factor of 1 + n * 2^-50 if there is no underflow, n the number of parameters. *)
Theorem C242_polynomial_in_double_precision :
  forall pars r, (forall p, In p pars -> is_float p) -> 0 <= r ->
  is_float (polyval_f pars r) /\ polyval_f [] r = 0 /\
  (forall a, is_float a -> polyval_f (pars ++ [a]) 0 = a) /\
  (forall pars', Forall2 Rle pars pars' -> polyval_f pars r <= polyval_f pars' r) /\
  ((forall p, In p pars -> 0 <= p) ->
     0 <= polyval_f pars r /\
     (forall r', r <= r' -> polyval_f pars r <= polyval_f pars r') /\
     (no_underflow 0 r pars -> (Z.of_nat (length pars) <= 2 ^ 49)%Z ->
        let tol := 1 + IZR (Z.of_nat (length pars)) * bpow radix2 (-50) in
        polyval_f pars r <= polynomial pars r * tol /\ polynomial pars r <= polyval_f pars r * tol)).
Proof.
  intros pars r FP R0. unfold polyval_f. change (fun y p => rnd (rnd (y * r) + p)) with (hstep r).
  split; [apply horner_float, is_0|]. split; [reflexivity|]. split; [|split].
  - intros a FA. rewrite fold_left_app. cbn [fold_left]. rewrite Rmult_0_r, rnd_0, Rplus_0_l. now apply rnd_id.
  - intros ps' H. apply horner_mono_pars; [exact R0|exact H|lra].
  - intros NN. assert (F : Forall (fun p => 0 <= p) pars) by now apply Forall_forall.
    split; [apply horner_pos; auto using Rle_refl|]. split.
    + intros r' RR. change (fun y p => rnd (rnd (y * r') + p)) with (hstep r'). apply horner_mono_r; auto; lra.
    + intros U L. set (tol := 1 + IZR (Z.of_nat (length pars)) * bpow radix2 (-50)). assert (F2 : Forall nonneg_float pars) by (apply Forall_forall; intros p Hp; split; auto).
      pose proof (horner_near r pars R0 F2 0%nat 0 0 is_0 (near_refl 0 0 (Rle_refl 0)) U) as N. rewrite horner_exact, Rmult_0_l, Rplus_0_l in N. cbn [Nat.add] in N.
      destruct N as (A & B & C & D). assert (T : (1 + 2 * u) ^ (2 * length pars) <= tol).
      { eapply Rle_trans; [apply grow_linear; change (bpow radix2 51) with (IZR (2 ^ 51)); apply IZR_le; lia|]. apply Req_le. unfold tol. rewrite Nat2Z.inj_mul, mult_IZR.
        change (-50)%Z with (1 + -51)%Z. rewrite bpow_plus. change (bpow radix2 1) with 2. change (IZR (Z.of_nat 2)) with 2. ring. }
      split.
      * eapply Rle_trans; [exact D|]. now apply Rmult_le_compat_l.
      * eapply Rle_trans; [exact C|]. now apply Rmult_le_compat_l.
Qed.
Print Assumptions C242_polynomial_in_double_precision.

(** *** C243: nanoparticle baseline *)
Definition shape (x : R) : R := 1 - 3 / 4 * x + 1 / 16 * x ^ 3.
Lemma shape_range x : 0 <= x <= 2 -> 0 <= shape x <= 1.
Proof.
  intros H. unfold shape. split.
  - replace (1 - 3 / 4 * x + 1 / 16 * x ^ 3) with (/ 16 * ((2 - x) * (2 - x)) * (4 + x)) by field. apply Rmult_le_pos; [|lra]. apply Rmult_le_pos; [lra|]. apply Rmult_le_pos; lra.
  - assert (x * x <= 4) by (replace 4 with (2 * 2) by ring; apply Rmult_le_compat; lra). assert (x * (x * x) <= x * 4) by (apply Rmult_le_compat_l; lra). replace (x ^ 3) with (x * (x * x)) by ring. lra.
Qed.
Lemma shape_close x y : 0 <= x <= 2 -> 0 <= y <= 2 -> Rabs (shape x - shape y) <= 3 / 4 * Rabs (x - y).
Proof.
  intros X Y. unfold shape. replace (1 - 3 / 4 * x + 1 / 16 * x ^ 3 - (1 - 3 / 4 * y + 1 / 16 * y ^ 3)) with ((/ 16 * (x * x + x * y + y * y) - 3 / 4) * (x - y)) by field.
  rewrite Rabs_mult. apply Rmult_le_compat_r; [apply Rabs_pos|].
  assert (0 <= x * x <= 4) by (split; [apply Rmult_le_pos; lra|replace 4 with (2 * 2) by ring; apply Rmult_le_compat; lra]).
  assert (0 <= x * y <= 4) by (split; [apply Rmult_le_pos; lra|replace 4 with (2 * 2) by ring; apply Rmult_le_compat; lra]).
  assert (0 <= y * y <= 4) by (split; [apply Rmult_le_pos; lra|replace 4 with (2 * 2) by ring; apply Rmult_le_compat; lra]).
  apply Rabs_le. lra.
Qed.
Lemma err e x : (-1000 <= e)%Z -> Rabs x <= bpow radix2 e -> - (bpow radix2 e * u) <= rnd x - x <= bpow radix2 e * u.
Proof. intros E H. apply Rabs_le_inv. eapply Rle_trans; [now apply (rnd_error x e)|]. apply Req_le. unfold u. rewrite <- bpow_plus. f_equal. Qed.
Lemma factor_close x : 0 <= x <= 2 -> Rabs (nano_factor_f x - shape x) <= 7 * u.
Proof.
  intros X. pose proof u_small as US. assert (U0 : 0 < u) by apply bpow_gt_0. unfold nano_factor_f.
  set (a := rnd (3 / 4 * x)). set (b := rnd (1 - a)). set (c := rnd (x ^ 3)). set (d := rnd (1 / 16 * c)).
  pose proof (err 1 (3 / 4 * x) ltac:(lia) ltac:(apply Rabs_le; cbn; lra)) as EA. fold a in EA. change (bpow radix2 1) with 2 in EA.
  assert (A0 : 0 <= a) by (apply rnd_pos; lra).
  assert (A2 : a <= 2) by (apply rnd_up; [apply is_2|lra]).
  pose proof (err 0 (1 - a) ltac:(lia) ltac:(apply Rabs_le; cbn; lra)) as EB. fold b in EB. change (bpow radix2 0) with 1 in EB.
  assert (X2 : 0 <= x * x <= 4) by (split; [apply Rmult_le_pos; lra|replace 4 with (2 * 2) by ring; apply Rmult_le_compat; lra]).
  assert (X3 : 0 <= x ^ 3 <= 8).
  { replace (x ^ 3) with (x * (x * x)) by ring. split; [apply Rmult_le_pos; lra|]. replace 8 with (2 * 4) by ring. apply Rmult_le_compat; lra. }
  pose proof (err 3 (x ^ 3) ltac:(lia) ltac:(apply Rabs_le; cbn; cbn in X3; lra)) as EC. fold c in EC. change (bpow radix2 3) with 8 in EC.
  assert (C0 : 0 <= c) by (apply rnd_pos; lra).
  assert (C8 : c <= 8) by (change 8 with (bpow radix2 3); apply rnd_up; [apply is_bpow; lia|change (bpow radix2 3) with 8; lra]).
  pose proof (err (-1) (1 / 16 * c) ltac:(lia) ltac:(apply Rabs_le; cbn; lra)) as ED. fold d in ED. change (bpow radix2 (-1)) with (/ 2) in ED.
  pose proof (err 1 (b + d) ltac:(lia) ltac:(apply Rabs_le; cbn; lra)) as EF. change (bpow radix2 1) with 2 in EF.
  apply Rabs_le. unfold shape. lra.
Qed.

(** The value of a spherical nanoparticle baseline in double precision: 0 outside the
    interval from 0 to twice the radius, and inside off by at most |scale| * r * 2^-49
    (unless |scale| * r is below 2^-900). *)
Theorem C243_nanospherical_in_double_precision :
  forall s R0 r, is_float R0 -> 0 < R0 ->
  (r <= 0 \/ 2 * R0 <= r -> nano_value_f s R0 r = 0) /\
  (0 < r < 2 * R0 -> bpow radix2 (-900) <= Rabs s * r ->
     Rabs (nano_value_f s R0 r - (- Rabs s * r * (1 - 3 / 4 * (r / R0) + 1 / 16 * (r / R0) ^ 3))) <= Rabs s * r * bpow radix2 (-49)).
Proof.
  intros s R0 r FR R. pose proof u_small as US. assert (U0 : 0 < u) by apply bpow_gt_0. unfold nano_value_f. rewrite (rnd_id (2 * R0)) by now apply double_float. split.
  - intros [H|H]; destruct (Rle_dec r 0); try reflexivity; try lra. destruct (Rle_dec (2 * R0) r); [reflexivity|lra].
  - intros H N. destruct (Rle_dec r 0); [lra|]. destruct (Rle_dec (2 * R0) r); [lra|].
    unfold nano_value2_f. rewrite (Rabs_right R0) by lra. set (x := r / R0). fold (shape x). set (w := Rabs s * r) in *.
    replace (- Rabs s * r) with (- w) by (unfold w; ring).
    assert (W : 0 < w) by (eapply Rlt_le_trans; [apply bpow_gt_0|exact N]).
    assert (X : 0 <= x <= 2).
    { unfold x. split; [apply Rmult_le_pos; [lra|apply Rlt_le, Rinv_0_lt_compat; lra]|]. apply Rmult_le_reg_r with R0; [lra|]. unfold Rdiv. rewrite Rmult_assoc, Rinv_l; lra. }
    pose proof (err 1 x ltac:(lia) ltac:(apply Rabs_le; cbn; lra)) as EX. change (bpow radix2 1) with 2 in EX.
    assert (XF : 0 <= rnd x <= 2) by (split; [apply rnd_pos; lra|apply rnd_up; [apply is_2|lra]]).
    pose proof (factor_close (rnd x) XF) as EF. pose proof (shape_close (rnd x) x XF X) as ES.
    assert (EX' : Rabs (rnd x - x) <= 2 * u) by (apply Rabs_le; lra).
    apply Rabs_le_inv in EF, ES. pose proof (shape_range x X) as SR. set (p := shape x) in *. set (f := nano_factor_f (rnd x)) in *.
    assert (EP : Rabs (f - p) <= 17 / 2 * u) by (apply Rabs_le; lra).
    pose proof (rnd_rel (- w)) as ET. rewrite Rabs_Ropp, (Rabs_right w) in ET by lra. specialize (ET ltac:(eapply Rle_trans; [|exact N]; apply bpow_le; lia)).
    set (t := rnd (- w)) in *.
    assert (UW : u * w <= 1 / 1000000 * w) by (apply Rmult_le_compat_r; lra). assert (UW0 : 0 <= u * w) by (apply Rmult_le_pos; lra).
    assert (TA : Rabs t <= 2 * w) by (apply Rabs_le_inv in ET; apply Rabs_le; lra).
    assert (FA : Rabs f <= 2) by (apply Rabs_le_inv in EP; apply Rabs_le; lra).
    assert (TF : Rabs (t * f) <= 4 * w).
    { rewrite Rabs_mult. replace (4 * w) with (2 * w * 2) by ring. apply Rmult_le_compat; auto using Rabs_pos. }
    pose proof (rnd_below (t * f) (4 * w) ltac:(assert (bpow radix2 (-1022) <= bpow radix2 (-900)) by (apply bpow_le; lia); lra) TF) as EV.
    (* three errors *)
    replace (rnd (t * f) - - w * p) with ((rnd (t * f) - t * f) + t * (f - p) + (t - - w) * p) by ring.
    assert (E2 : Rabs (t * (f - p)) <= 101 / 100 * w * (17 / 2 * u)).
    { rewrite Rabs_mult. apply Rmult_le_compat; auto using Rabs_pos. apply Rabs_le_inv in ET. apply Rabs_le. lra. }
    assert (E3 : Rabs ((t - - w) * p) <= u * w * 1).
    { rewrite Rabs_mult. apply Rmult_le_compat; auto using Rabs_pos. apply Rabs_le. lra. }
    eapply Rle_trans; [apply Rabs_triang|]. eapply Rle_trans; [apply Rplus_le_compat_r, Rabs_triang|].
    replace (bpow radix2 (-49)) with (16 * u) by (unfold u; change (-49)%Z with (4 + -53)%Z; rewrite bpow_plus; reflexivity). lra.
Qed.
Print Assumptions C243_nanospherical_in_double_precision.

(** *** C244 *)
Lemma dyadic m j : (Z.abs m < 2 ^ 53)%Z -> (-1074 <= j)%Z -> is_float (IZR m * bpow radix2 j).
Proof.
  intros M J. apply generic_format_FLT. exists (Float radix2 m j); [reflexivity| |exact J]. cbn [Fnum]. change (Zpower radix2 53) with (2 ^ 53)%Z. exact M.
Qed.
(** What is closer than half a unit in the last place to a double is rounded to it. *)
Lemma pin f e y : is_float f -> (-1000 <= e)%Z -> bpow radix2 e < f < bpow radix2 (e + 1) -> Rabs (y - f) < / 2 * bpow radix2 (e - 52) -> rnd y = f.
Proof.
  intros F E H D. pose proof (bpow_gt_0 radix2 e) as B. assert (M : mag radix2 f = (e + 1)%Z :> Z).
  { apply mag_unique. replace (e + 1 - 1)%Z with e by lia. rewrite Rabs_right by lra. lra. }
  assert (U : ulp radix2 fexp64 f = bpow radix2 (e - 52)).
  { rewrite ulp_neq_0 by lra. unfold cexp. rewrite M. unfold fexp64, FLT_exp. rewrite Z.max_l by lia. f_equal. lia. }
  assert (S : succ radix2 fexp64 f = f + bpow radix2 (e - 52)) by (rewrite succ_eq_pos by lra; now rewrite U).
  assert (P : pred radix2 fexp64 f = f - bpow radix2 (e - 52)).
  { rewrite pred_eq_pos by lra. unfold pred_pos. rewrite M. replace (e + 1 - 1)%Z with e by lia. rewrite U. destruct (Req_bool_spec f (bpow radix2 e)) as [X|X]; [lra|reflexivity]. }
  apply Rabs_def2 in D. apply Rle_antisym.
  - apply round_N_le_midp; [exact fexp_ok|exact F|]. rewrite S. lra.
  - apply round_N_ge_midp; [exact fexp_ok|exact F|]. rewrite P. lra.
Qed.
Definition x0 : R := IZR (2 ^ 53 - 3) * bpow radix2 (-52).
Definition ep : R := bpow radix2 (-52).
Lemma ep_val : 4503599627370496 * ep = 1. Proof. unfold ep. cbn. lra. Qed.
Lemma x0_val : x0 = 2 - 3 * ep. Proof. unfold x0. fold ep. pose proof ep_val. change (2 ^ 53 - 3)%Z with 9007199254740989%Z. lra. Qed.
Lemma factor_x0 : nano_factor_f x0 = - bpow radix2 (-54).
Proof.
  pose proof ep_val as V. assert (E0 : 0 < ep) by apply bpow_gt_0.
  assert (Q : bpow radix2 (-54) = ep / 4) by (unfold ep; change (-54)%Z with (-2 + -52)%Z; rewrite bpow_plus; cbn; lra).
  assert (Q50 : bpow radix2 (-50) = 4 * ep) by (unfold ep; change (-50)%Z with (2 + -52)%Z; rewrite bpow_plus; reflexivity).
  unfold nano_factor_f. 
  assert (A : rnd (3 / 4 * x0) = 3 / 2 - 2 * ep).
  { apply (pin _ 0); [|lia| |].
    - replace (3 / 2 - 2 * ep) with (IZR (3 * 2 ^ 51 - 2) * bpow radix2 (-52)); [apply dyadic; lia|]. fold ep. change (3 * 2 ^ 51 - 2)%Z with 6755399441055742%Z. lra.
    - cbn. lra.
    - rewrite x0_val. replace (3 / 4 * (2 - 3 * ep) - (3 / 2 - 2 * ep)) with (- (ep / 4)) by field. rewrite Rabs_Ropp, Rabs_right by lra. change (bpow radix2 (0 - 52)) with ep. lra. }
  assert (B : rnd (1 - (3 / 2 - 2 * ep)) = - / 2 + 2 * ep).
  { replace (1 - (3 / 2 - 2 * ep)) with (- / 2 + 2 * ep) by field. apply rnd_id.
    replace (- / 2 + 2 * ep) with (IZR (2 - 2 ^ 51) * bpow radix2 (-52)); [apply dyadic; lia|]. fold ep. change (2 - 2 ^ 51)%Z with (-2251799813685246)%Z. lra. }
  assert (C : rnd (x0 ^ 3) = 8 - 36 * ep).
  { apply (pin _ 2); [|lia| |].
    - replace (8 - 36 * ep) with (IZR (2 ^ 53 - 9) * bpow radix2 (-50)); [apply dyadic; lia|]. rewrite Q50. change (2 ^ 53 - 9)%Z with 9007199254740983%Z. lra.
    - cbn. lra.
    - rewrite x0_val. replace ((2 - 3 * ep) ^ 3 - (8 - 36 * ep)) with (ep * ep * (54 - 27 * ep)) by ring. change (2 - 52)%Z with (-50)%Z. rewrite Q50.
      assert (W : 0 <= ep * (54 - 27 * ep)) by (apply Rmult_le_pos; lra). assert (W2 : ep * (54 - 27 * ep) <= ep * 54) by (apply Rmult_le_compat_l; lra).
      replace (ep * ep * (54 - 27 * ep)) with (ep * (ep * (54 - 27 * ep))) by ring. rewrite Rabs_right by (apply Rle_ge, Rmult_le_pos; lra).
      assert (ep * (ep * (54 - 27 * ep)) <= ep * (ep * 54)) by (apply Rmult_le_compat_l; lra). assert (ep * (ep * 54) <= ep * 1) by (apply Rmult_le_compat_l; lra). lra. }
  assert (D : rnd (1 / 16 * (8 - 36 * ep)) = / 2 - 9 / 4 * ep).
  { replace (1 / 16 * (8 - 36 * ep)) with (/ 2 - 9 / 4 * ep) by field. apply rnd_id.
    replace (/ 2 - 9 / 4 * ep) with (IZR (2 ^ 53 - 9) * bpow radix2 (-54)); [apply dyadic; lia|]. rewrite Q. change (2 ^ 53 - 9)%Z with 9007199254740983%Z. lra. }
  rewrite A, B, C, D. replace (- / 2 + 2 * ep + (/ 2 - 9 / 4 * ep)) with (- (ep / 4)) by field. rewrite <- Q. apply rnd_id. apply generic_format_opp, is_bpow. lia.
Qed.
(** Expectation: the baseline of a nanoparticle is never positive.  Violated in double
    precision, three units in the last place below twice the radius, where
    cancellation leaves a shape factor of -2^-54: for every radius 2^j the value there is positive
    (at most about |scale| * radius * 2^-53). *)
Theorem C244_positive_baseline_refuted :
  forall s j, bpow radix2 (-400) <= Rabs s -> (-400 <= j <= 400)%Z ->
  exists r, is_float r /\ 0 < r < 2 * bpow radix2 j /\ 0 < nano_value_f s (bpow radix2 j) r /\
    - Rabs s * r * (1 - 3 / 4 * (r / bpow radix2 j) + 1 / 16 * (r / bpow radix2 j) ^ 3) < 0.
Proof.
  intros s j S J. pose proof ep_val as V. assert (E0 : 0 < ep) by apply bpow_gt_0. pose proof (bpow_gt_0 radix2 j) as BJ. pose proof x0_val as X.
  assert (F : is_float (IZR (2 ^ 53 - 3) * bpow radix2 (-52 + j))) by (apply dyadic; lia).
  rewrite bpow_plus, <- Rmult_assoc in F. fold x0 in F.
  assert (XJ : 0 < x0 * bpow radix2 j) by (apply Rmult_lt_0_compat; lra).
  assert (XJ2 : x0 * bpow radix2 j < 2 * bpow radix2 j) by (apply Rmult_lt_compat_r; lra).
  assert (SP : 0 < Rabs s) by (eapply Rlt_le_trans; [apply bpow_gt_0|exact S]).
  exists (x0 * bpow radix2 j). split; [exact F|]. split; [split; assumption|].
  assert (QX : x0 * bpow radix2 j / bpow radix2 j = x0) by (field; lra). rewrite QX. split.
  - unfold nano_value_f. rewrite (rnd_id (2 * bpow radix2 j)) by (apply double_float, is_bpow; lia).
    destruct (Rle_dec (x0 * bpow radix2 j) 0); [lra|]. destruct (Rle_dec (2 * bpow radix2 j) (x0 * bpow radix2 j)); [lra|].
    unfold nano_value2_f. rewrite (Rabs_right (bpow radix2 j)) by lra. rewrite QX.
    rewrite (rnd_id x0) by (apply dyadic; lia). rewrite factor_x0.
    assert (T : rnd (- Rabs s * (x0 * bpow radix2 j)) <= - bpow radix2 (-800)).
    { apply rnd_up; [apply generic_format_opp, is_bpow; lia|]. rewrite <- Ropp_mult_distr_l. apply Ropp_le_contravar.
      change (-800)%Z with (-400 + -400)%Z. rewrite bpow_plus. apply Rmult_le_compat; [apply bpow_ge_0|apply bpow_ge_0|exact S|].
      apply Rle_trans with (1 * bpow radix2 j); [rewrite Rmult_1_l; apply bpow_le; lia|]. apply Rmult_le_compat_r; lra. }
    apply Rlt_le_trans with (bpow radix2 (-854)); [apply bpow_gt_0|]. apply rnd_down; [apply is_bpow; lia|].
    set (t := rnd _) in *. replace (t * - bpow radix2 (-54)) with ((- t) * bpow radix2 (-54)) by ring.
    change (-854)%Z with (-800 + -54)%Z. rewrite bpow_plus. apply Rmult_le_compat_r; [apply bpow_ge_0|lra].
  - assert (P : 0 < 1 - 3 / 4 * x0 + 1 / 16 * x0 ^ 3).
    { replace (1 - 3 / 4 * x0 + 1 / 16 * x0 ^ 3) with (/ 16 * ((2 - x0) * (2 - x0)) * (4 + x0)) by field.
      apply Rmult_lt_0_compat; [|lra]. apply Rmult_lt_0_compat; [lra|]. apply Rmult_lt_0_compat; lra. }
    assert (N : 0 < Rabs s * (x0 * bpow radix2 j) * (1 - 3 / 4 * x0 + 1 / 16 * x0 ^ 3)) by (apply Rmult_lt_0_compat; [apply Rmult_lt_0_compat|]; assumption).
    rewrite <- !Ropp_mult_distr_l. lra.
Qed.
Print Assumptions C244_positive_baseline_refuted.

(** The hypotheses of the three theorems are satisfiable. *)
Example C242_nonvacuous :
  (forall p, In p [1; 2] -> is_float p) /\ no_underflow 0 2 [1; 2] /\ polynomial [1; 2] 2 = 4.
Proof.
  split; [intros p [<-|[<-|[]]]; [apply is_1|apply is_2]|]. split; [|cbn; ring].
  cbn [no_underflow]. rewrite Rmult_0_l, rnd_0, Rplus_0_l, (rnd_id 1 is_1), Rmult_1_l.
  split; [now left|]. split; [|trivial]. right. apply Rle_trans with (bpow radix2 0); [apply bpow_le; lia|cbn; lra].
Qed.
Example C243_nonvacuous : is_float 8 /\ 0 < 1 < 2 * 8 /\ bpow radix2 (-900) <= Rabs 1 * 1.
Proof.
  split; [change 8 with (bpow radix2 3); apply is_bpow; lia|]. split; [lra|]. rewrite Rabs_R1, Rmult_1_r. change 1 with (bpow radix2 0). apply bpow_le. lia.
Qed.
Example C244_nonvacuous : bpow radix2 (-400) <= Rabs 1 /\ (-400 <= 3 <= 400)%Z.
Proof. split; [|lia]. rewrite Rabs_R1. change 1 with (bpow radix2 0). apply bpow_le. lia. Qed.

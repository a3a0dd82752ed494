(** Properties C30-C32 (baselines). *)
From Coq Require Import Reals Lra Psatz.
From Coquelicot Require Import Coquelicot.
From Verif Require Import Prelude PeakFuncs PeakDerivProps Baselines.
Open Scope R_scope.

(** ** C30 *)
(** sum of f k for k < n. *)
Fixpoint sum_below (n : nat) (f : nat -> R) : R :=
  match n with O => 0 | S k => sum_below k f + f k end.

Lemma poly_npars_eq d : poly_npars (Z.of_nat d) = S d.
Proof.
  unfold poly_npars, poly_parameterdict. rewrite map_length, seq_length. unfold poly_degree.
  destruct (Z.ltb_spec (Z.of_nat d) 0); lia.
Qed.
Lemma poly_npars_neg d : (d < 0)%Z -> poly_npars d = 0%nat.
Proof.
  intros H. unfold poly_npars, poly_parameterdict. rewrite map_length, seq_length. unfold poly_degree.
  destruct (Z.ltb_spec d 0); [reflexivity|lia].
Qed.

Lemma polyval_acc pars r : forall y,
  fold_left (fun y p => y * r + p) pars y = y * r ^ length pars + polyval pars r.
Proof.
  unfold polyval. induction pars as [|p pars IH]; intros y; cbn [fold_left length]; [cbn; ring|].
  rewrite IH, (IH (0 * r + p)). cbn [pow]. ring.
Qed.
Lemma polyval_cons p pars r : polyval (p :: pars) r = p * r ^ length pars + polyval pars r.
Proof. unfold polyval at 1. cbn [fold_left]. rewrite polyval_acc. ring. Qed.

Lemma sum_below_ext n f g : (forall k, (k < n)%nat -> f k = g k) -> sum_below n f = sum_below n g.
Proof. induction n as [|n IH]; intros H; cbn; [reflexivity|]. rewrite IH, H by (intros; auto; apply H; lia). reflexivity. Qed.

Lemma polyval_sum pars r : polyval pars r = sum_below (length pars) (fun k => nth (length pars - 1 - k) pars 0 * r ^ k).
Proof.
  induction pars as [|p pars IH]; [reflexivity|]. rewrite polyval_cons, IH. cbn [length sum_below].
  replace (S (length pars) - 1 - length pars)%nat with 0%nat by lia. cbn [nth]. rewrite Rplus_comm. f_equal.
  apply sum_below_ext. intros k Hk. f_equal.
  replace (S (length pars) - 1 - k)%nat with (S (length pars - 1 - k)) by lia. reflexivity.
Qed.

(** The value is the polynomial with the coefficients [a_d; ...; a_0]: the parameter called
    "a_k" in the parameter dictionary is the one at index d - k and the coefficient of r^k;
    a wrong number of parameters raises ValueError. *)
Theorem C30_value :
  forall (d : nat) pars r,
    (length pars <> S d -> poly_value (Z.of_nat d) pars r = Err ValueError) /\
    (length pars = S d ->
       poly_parameterdict (Z.of_nat d) = map (fun k => (k, (d - k)%nat)) (seq 0 (S d)) /\
       poly_value (Z.of_nat d) pars r = Ok (sum_below (S d) (fun k => nth (d - k) pars 0 * r ^ k))).
Proof.
  intros d pars r. unfold poly_value. rewrite poly_npars_eq. split; intros H.
  - destruct (Nat.eqb_spec (length pars) (S d)); [contradiction|reflexivity].
  - rewrite H, Nat.eqb_refl. cbn [negb]. split.
    + unfold poly_parameterdict, poly_degree. destruct (Z.ltb_spec (Z.of_nat d) 0); [lia|].
      replace (Z.to_nat (Z.of_nat d + 1)) with (S d) by lia. apply map_ext. intros k. f_equal. lia.
    + f_equal. rewrite polyval_sum, H. apply sum_below_ext. intros k Hk. do 2 f_equal. lia.
Qed.
Print Assumptions C30_value.

(** Degree "minus infinity": no parameters, value 0. *)
Theorem C30_zero_polynomial :
  forall d r, (d < 0)%Z -> poly_npars d = 0%nat /\ poly_value d [] r = Ok 0.
Proof. intros d r H. unfold poly_value. rewrite poly_npars_neg by exact H. split; reflexivity. Qed.
Print Assumptions C30_zero_polynomial.

Lemma poly_partial (pars : list R) (i : nat) (r : R) : (i < length pars)%nat ->
  is_derive (fun q => polyval (upd pars i q) r) (nth i pars 0) (r ^ (length pars - 1 - i)).
Proof.
  revert i. induction pars as [|p pars IH]; intros i Hi; [cbn in Hi; lia|].
  destruct i as [|i].
  - cbn [upd nth length]. apply (is_derive_ext (fun q => q * r ^ length pars + polyval pars r)); [intros; symmetry; apply polyval_cons|].
    replace (S (length pars) - 1 - 0)%nat with (length pars) by lia. auto_derive; auto. apply Rmult_1_l.
  - cbn [upd nth length]. cbn [length] in Hi.
    apply (is_derive_ext (fun q => p * r ^ length pars + polyval (upd pars i q) r)).
    { intros q. symmetry. rewrite polyval_cons. do 3 f_equal.
      assert (L : forall (l : list R) j a, length (upd l j a) = length l).
      { intros l; induction l as [|b l IHl]; intros [|j] a; cbn; auto. }
      now rewrite L. }
    replace (S (length pars) - 1 - S i)%nat with (length pars - 1 - i)%nat by lia.
    eapply is_derive_eq; [apply (is_derive_plus (fun _ => p * r ^ length pars)); [apply is_derive_const|apply IH; lia]|].
    change (0 + r ^ (length pars - 1 - i) = r ^ (length pars - 1 - i)). ring.
Qed.

(** The returned entry for a free parameter i (of d+1) is the derivative exactly when
    r^i = r^(d-i); so it is right for the middle coefficient and for d = 0. *)
Theorem C80_jacobian_exact_partial :
  forall d pars r free i, length pars = S d -> length free = S d -> (i <= d)%nat -> nth i free false = true ->
    exists jac v, poly_jacobian (Z.of_nat d) pars r free = Ok jac /\ length jac = S d /\ nth_error jac i = Some (Some v) /\
      (derivable_pt_lim (fun q => polyval (upd pars i q) r) (nth i pars 0) v <-> r ^ i = r ^ (d - i)) /\
      (d = (2 * i)%nat -> derivable_pt_lim (fun q => polyval (upd pars i q) r) (nth i pars 0) v).
Proof.
  intros d pars r free i Hp Hf Hi Hfree. unfold poly_jacobian. rewrite poly_npars_eq, Hp, Hf, Nat.eqb_refl. cbn [negb].
  assert (N : length (filter negb free) <> S d).
  { intros E. assert (F : forall l : list bool, length (filter negb l) = length l -> forall j, nth j l false = false).
    { intros l. induction l as [|b l IHl]; intros E' j; [destruct j; reflexivity|].
      assert (LE : forall l : list bool, (length (filter negb l) <= length l)%nat).
      { intros l'. induction l' as [|b' l' IH']; cbn; [lia|]. destruct b'; cbn; lia. }
      destruct b; cbn [filter negb length] in E'; [specialize (LE l); lia|]. destruct j as [|j]; [reflexivity|]. cbn [nth]. apply IHl. lia. }
    rewrite (F free) in Hfree by congruence. discriminate. }
  destruct (Nat.eqb_spec (length (filter negb free)) (S d)); [contradiction|].
  assert (NE : nth_error (map (fun idx => if nth idx free false then Some (r ^ idx) else None) (seq 0 (S d))) i = Some (Some (r ^ i))).
  { rewrite nth_error_map.
    assert (Q : nth_error (seq 0 (S d)) i = Some i).
    { rewrite (nth_error_nth' _ 0%nat) by (rewrite seq_length; lia). rewrite seq_nth by lia. reflexivity. }
    rewrite Q. cbn [option_map]. now rewrite Hfree. }
  assert (Hip : (i < length pars)%nat) by (rewrite Hp; lia).
  pose proof (poly_partial pars i r Hip) as D. rewrite Hp in D.
  replace (S d - 1 - i)%nat with (d - i)%nat in D by lia. apply is_derive_Reals in D.
  eexists. exists (r ^ i). split; [reflexivity|]. split; [rewrite map_length, seq_length; reflexivity|]. split; [exact NE|]. split.
  - split; intros H.
    + eapply uniqueness_limite; eassumption.
    + rewrite H. exact D.
  - intros E. replace (r ^ i) with (r ^ (d - i)); [exact D|]. f_equal. lia.
Qed.
Print Assumptions C80_jacobian_exact_partial.

(** For every degree >= 1 the Jacobian is wrong at (for example) r = 2 for the
    parameter in first place, the leading coefficient. *)
Theorem C80_jacobian_refuted :
  forall d pars free, (1 <= d)%nat -> length pars = S d -> length free = S d -> nth 0 free false = true ->
    exists jac v, poly_jacobian (Z.of_nat d) pars 2 free = Ok jac /\ nth_error jac 0 = Some (Some v) /\
      ~ derivable_pt_lim (fun q => polyval (upd pars 0 q) 2) (nth 0 pars 0) v.
Proof.
  intros d pars free Hd Hp Hf H0.
  destruct (C80_jacobian_exact_partial d pars 2 free 0 Hp Hf ltac:(lia) H0) as (jac & v & E & _ & N & Iff & _).
  exists jac, v. split; [exact E|]. split; [exact N|]. rewrite Iff. intros Q.
  assert (L : 1 < 2 ^ (d - 0)) by (apply Rlt_pow_R1; [lra|lia]). rewrite <- Q in L. rewrite pow_O in L. exact (Rlt_irrefl _ L).
Qed.
Print Assumptions C80_jacobian_refuted.

Example C30_nonvacuous : poly_value 2 [1; 2; 3] 2 = Ok 11 /\ nth 0 [true; true] false = true.
Proof. split; [|reflexivity]. change (Ok (polyval [1; 2; 3] 2) = Ok 11). f_equal. unfold polyval. cbn [fold_left]. ring. Qed.

(** ** C31 *)
(** The documented shape: gamma_0 of a sphere of radius R. *)
Definition gamma0 (R1 r : R) : R := 1 - 3 * r / (4 * R1) + r ^ 3 / (16 * R1 ^ 3).

Lemma nano_gamma s R0 r : 0 < R0 -> nano_value2 s R0 r = - Rabs s * r * gamma0 R0 r.
Proof. intros H. unfold nano_value2, gamma0. rewrite (Rabs_pos_eq R0) by lra. field. lra. Qed.
Lemma gamma_factor R0 r : R0 <> 0 -> gamma0 R0 r = (2 * R0 - r) ^ 2 * (r + 4 * R0) / (16 * R0 ^ 3).
Proof. intros H. unfold gamma0. field. exact H. Qed.

Theorem C31_value :
  forall s R0 r, 0 < R0 ->
    (r <= 0 \/ 2 * R0 <= r -> nano_value s R0 r = 0) /\
    (0 < r < 2 * R0 -> nano_value s R0 r = - Rabs s * r * gamma0 R0 r /\ 0 < gamma0 R0 r) /\
    (s <> 0 -> 0 < r < 2 * R0 -> nano_value s R0 r < 0) /\
    nano_value s R0 r = - Rabs s * Rmin (Rmax r 0) (2 * R0) * gamma0 R0 (Rmin (Rmax r 0) (2 * R0)).
Proof.
  intros s R0 r HR.
  assert (O : r <= 0 \/ 2 * R0 <= r -> nano_value s R0 r = 0).
  { intros H. unfold nano_value. destruct (Rle_dec r 0); [reflexivity|]. destruct (Rle_dec (2 * R0) r); [reflexivity|lra]. }
  assert (IN : 0 < r < 2 * R0 -> nano_value s R0 r = - Rabs s * r * gamma0 R0 r /\ 0 < gamma0 R0 r).
  { intros H. unfold nano_value. destruct (Rle_dec r 0); [lra|]. destruct (Rle_dec (2 * R0) r); [lra|].
    split; [now apply nano_gamma|]. rewrite gamma_factor by lra. unfold Rdiv. apply Rmult_lt_0_compat.
    - apply Rmult_lt_0_compat; [|lra]. apply pow_lt. lra.
    - apply Rinv_0_lt_compat. assert (0 < R0 ^ 3) by (apply pow_lt; exact HR). lra. }
  split; [exact O|]. split; [exact IN|]. split.
  - intros Hs H. destruct (IN H) as [-> G]. assert (0 < Rabs s) by (now apply Rabs_pos_lt).
    assert (0 < Rabs s * r * gamma0 R0 r) by (apply Rmult_lt_0_compat; [apply Rmult_lt_0_compat|]; lra). lra.
  - destruct (Rle_lt_dec r 0) as [L|L].
    + rewrite O by auto. rewrite Rmax_right, Rmin_left by lra. ring.
    + rewrite Rmax_left by lra. destruct (Rle_lt_dec (2 * R0) r) as [L2|L2].
      * rewrite O by auto. rewrite Rmin_right by lra. rewrite gamma_factor by lra. field. lra.
      * rewrite Rmin_left by lra. apply IN. lra.
Qed.
Print Assumptions C31_value.

Theorem C31_continuous : forall s R0 r, 0 < R0 -> continuity_pt (nano_value s R0) r.
Proof.
  intros s R0 r HR.
  assert (C : forall x, continuous (fun t => - Rabs s * t * gamma0 R0 t) x).
  { intros x. apply (ex_derive_continuous (fun t => - Rabs s * t * gamma0 R0 t)). unfold gamma0.
    auto_derive. repeat split; try lra; try (apply Rgt_not_eq; repeat apply Rmult_lt_0_compat; lra). }
  apply continuity_pt_filterlim. 
  apply (continuous_ext (fun t => - Rabs s * Rmin (Rmax t 0) (2 * R0) * gamma0 R0 (Rmin (Rmax t 0) (2 * R0)))).
  { intros t. symmetry. apply C31_value. exact HR. }
  assert (CM : continuous (fun t => Rmin (Rmax t 0) (2 * R0)) r).
  { apply continuity_pt_filterlim.
    assert (E : forall t, Rmin (Rmax t 0) (2 * R0) = (((t + 0 + Rabs (t - 0)) / 2) + 2 * R0 - Rabs ((t + 0 + Rabs (t - 0)) / 2 - 2 * R0)) / 2).
    { intros t. unfold Rmin, Rmax, Rabs. repeat destruct (Rle_dec _ _); repeat destruct (Rcase_abs _); lra. }
    intros eps He.
    assert (CC : continuity_pt (fun t => (((t + 0 + Rabs (t - 0)) / 2) + 2 * R0 - Rabs ((t + 0 + Rabs (t - 0)) / 2 - 2 * R0)) / 2) r).
    { reg; auto; apply Rcontinuity_abs. }
    destruct (CC eps He) as (del & Hd & Q). exists del. split; [exact Hd|]. intros x Hx. rewrite !E. apply Q. exact Hx. }
  apply (continuous_comp (fun t => Rmin (Rmax t 0) (2 * R0)) (fun t => - Rabs s * t * gamma0 R0 t)); [exact CM|apply C].
Qed.
Print Assumptions C31_continuous.

(** Scalar and array evaluation agree, for values and Jacobians, on every increasing
    array of radii. *)
Fixpoint increasing (l : list R) : Prop :=
  match l with [] => True | a :: t => (forall b, In b t -> a < b) /\ increasing t end.

Lemma count_while_spec (f : R -> bool) l : increasing l -> (forall a b, a < b -> f b = true -> f a = true) ->
  forall i a, nth_error l i = Some a -> (f a = true <-> (i < count_while f l)%nat).
Proof.
  intros Inc Mono. induction l as [|b l IH]; intros i a Hi; [destruct i; discriminate|].
  destruct Inc as [Lt Inc]. specialize (IH Inc). cbn [count_while].
  destruct i as [|i]; cbn in Hi.
  - injection Hi as ->. destruct (f a); split; intros; auto; try lia; discriminate.
  - destruct (f b) eqn:F.
    + rewrite (IH i a Hi). lia.
    + split; [|lia]. intros Fa. assert (b < a) by (apply Lt; eapply nth_error_In; eauto).
      rewrite (Mono b a H Fa) in F. discriminate.
Qed.

Lemma fill_slice_map lo hi f g l : (forall i a, nth_error l i = Some a ->
    (if (Nat.leb lo i && Nat.ltb i hi)%bool then f a else 0) = g a) ->
  fill_slice lo hi f l = map g l.
Proof.
  intros H. unfold fill_slice.
  assert (G : forall l k, (forall i a, nth_error l i = Some a -> (if (Nat.leb lo (k + i) && Nat.ltb (k + i) hi)%bool then f a else 0) = g a) ->
     map (fun ia : nat * R => let '(i, a) := ia in if (Nat.leb lo i && Nat.ltb i hi)%bool then f a else 0) (combine (seq k (length l)) l) = map g l).
  { intros l0. induction l0 as [|b l0 IH]; intros k Hk; [reflexivity|]. cbn [length seq combine map]. f_equal.
    - specialize (Hk 0%nat b eq_refl). now rewrite Nat.add_0_r in Hk.
    - apply IH. intros i a Hi. specialize (Hk (S i) a Hi). now rewrite Nat.add_succ_r in Hk. }
  apply G. exact H.
Qed.

Lemma domain_spec R0 l : increasing l -> forall i a, nth_error l i = Some a ->
  (Nat.leb (fst (nano_domain R0 l)) i && Nat.ltb i (snd (nano_domain R0 l)))%bool =
  (if Rle_dec a 0 then false else if Rle_dec (2 * R0) a then false else true).
Proof.
  intros Inc i a Hi. unfold nano_domain. cbn [fst snd].
  pose proof (count_while_spec (fun a => if Rle_dec a 0 then true else false) l Inc
    ltac:(intros u v Huv; cbn; destruct (Rle_dec v 0), (Rle_dec u 0); auto; try lra; discriminate) i a Hi) as H1.
  pose proof (count_while_spec (fun a => if Rlt_dec a (2 * R0) then true else false) l Inc
    ltac:(intros u v Huv; cbn; destruct (Rlt_dec v (2 * R0)), (Rlt_dec u (2 * R0)); auto; try lra; discriminate) i a Hi) as H2.
  cbv beta in H1, H2. revert H1 H2.
  set (c1 := count_while _ l). set (c2 := count_while _ l). clearbody c1 c2.
  destruct (Rle_dec a 0) as [P|P]; destruct (Rlt_dec a (2 * R0)) as [Q|Q]; intros [H1 H1'] [H2 H2'];
    destruct (Nat.leb_spec c1 i) as [L1|L1]; destruct (Nat.ltb_spec i c2) as [L2|L2]; cbn [andb];
    try (specialize (H1 eq_refl)); try (specialize (H2 eq_refl)); try lia; try reflexivity;
    try (destruct (Rle_dec (2 * R0) a); [lra|reflexivity]); try (destruct (Rle_dec (2 * R0) a); [reflexivity|lra]);
    try (specialize (H1' L1); discriminate); try (specialize (H2' L2); discriminate).
Qed.

Theorem C31_scalar_array_agree :
  forall s R0 l f0 f1, increasing l ->
    nano_value_array s R0 l = map (nano_value s R0) l /\
    nano_jacobian_array s R0 l (f0, f1) =
      map (fun k => if match k with O => f0 | _ => f1 end
                    then Some (map (fun r => match nth_error (nano_jacobian s R0 r (f0, f1)) k with Some (Some v) => v | _ => 0 end) l)
                    else None) [0%nat; 1%nat].
Proof.
  intros s R0 l f0 f1 Inc. pose proof (domain_spec R0 l Inc) as DS. unfold nano_value_array, nano_jacobian_array.
  destruct (nano_domain R0 l) as [lo hi]. cbn [fst snd] in DS.
  assert (G : forall f g, (forall a, g a = if Rle_dec a 0 then 0 else if Rle_dec (2 * R0) a then 0 else f a) -> fill_slice lo hi f l = map g l).
  { intros f g H. apply fill_slice_map. intros i a Hi. rewrite (DS i a Hi), H.
    destruct (Rle_dec a 0); [reflexivity|]. destruct (Rle_dec (2 * R0) a); reflexivity. }
  split.
  - apply G. intros a. reflexivity.
  - cbn [map]. f_equal; [|f_equal].
    + destruct f0; [|reflexivity]. f_equal. apply G. intros a. cbn. destruct (Rle_dec a 0); [reflexivity|]. destruct (Rle_dec (2 * R0) a); reflexivity.
    + destruct f1; [|reflexivity]. f_equal. apply G. intros a. cbn. destruct (Rle_dec a 0); [reflexivity|]. destruct (Rle_dec (2 * R0) a); reflexivity.
Qed.
Print Assumptions C31_scalar_array_agree.


(** Radius: for a positive radius the second Jacobian entry is the derivative of the
    value with respect to the radius, at every r other than the corner points
    r = 0 and r = 2R of the case distinction. *)
Theorem C31_jacobian_radius :
  forall s R0 r f0, 0 < R0 -> r <> 2 * R0 ->
    exists v, nth_error (nano_jacobian s R0 r (f0, true)) 1 = Some (Some v) /\
      derivable_pt_lim (fun q => nano_value s q r) R0 v.
Proof.
  intros s R0 r f0 HR Hr. unfold nano_jacobian. cbn [nth_error]. eexists. split; [reflexivity|].
  apply is_derive_Reals. destruct (Rle_dec r 0) as [L|L].
  - apply (is_derive_ext (fun _ : R => 0)); [|apply (is_derive_const 0)]. intros t. unfold nano_value.
    destruct (Rle_dec r 0); [reflexivity|contradiction].
  - destruct (Rle_dec (2 * R0) r) as [L2|L2].
    + assert (P : 0 < r / 2 - R0) by lra.
      apply (is_derive_ext_loc (fun _ : R => 0)); [|apply (is_derive_const 0)].
      exists (mkposreal _ P). intros q Hq. unfold ball in Hq; cbn in Hq; unfold AbsRing_ball in Hq; cbn in Hq.
      apply Rabs_def2 in Hq. unfold minus, plus, opp in Hq; cbn in Hq. unfold nano_value.
      destruct (Rle_dec r 0); [reflexivity|]. destruct (Rle_dec (2 * q) r); [reflexivity|lra].
    + assert (P : 0 < R0 - r / 2) by lra.
      apply (is_derive_ext_loc (fun q => - Rabs s * (r - 3 / 4 * r ^ 2 / q + r ^ 4 / (16 * q ^ 3)))).
      * exists (mkposreal _ P). intros q Hq. unfold ball in Hq; cbn in Hq; unfold AbsRing_ball in Hq; cbn in Hq.
        apply Rabs_def2 in Hq. unfold minus, plus, opp in Hq; cbn in Hq. unfold nano_value.
        destruct (Rle_dec r 0); [contradiction|]. destruct (Rle_dec (2 * q) r); [lra|].
        unfold nano_value2. rewrite (Rabs_pos_eq q) by lra.
        match goal with |- ?a = ?b => change (@eq R a b) end. field. lra.
      * auto_derive; [repeat split; try lra; apply Rgt_not_eq; repeat apply Rmult_lt_0_compat; lra|].
        unfold nano_jac_radius, sign. destruct (Rlt_dec 0 R0); [|contradiction]. rewrite (Rabs_pos_eq R0) by lra. field. lra.
Qed.
Print Assumptions C31_jacobian_radius.

(** Scale: the first entry is the derivative with respect to the scale when scale
    and radius are both positive ... *)
Lemma scale_shape s R0 r : nano_value s R0 r = Rabs s * nano_value 1 R0 r.
Proof.
  unfold nano_value, nano_value2. rewrite Rabs_R1. destruct (Rle_dec r 0); [ring|]. destruct (Rle_dec (2 * R0) r); ring.
Qed.
Theorem C113_jacobian_scale :
  forall s R0 r f1, 0 < s -> 0 < R0 ->
    exists v, nth_error (nano_jacobian s R0 r (true, f1)) 0 = Some (Some v) /\
      derivable_pt_lim (fun q => nano_value q R0 r) s v.
Proof.
  intros s R0 r f1 Hs HR. unfold nano_jacobian. cbn [nth_error]. eexists. split; [reflexivity|].
  apply is_derive_Reals. apply (is_derive_ext_loc (fun q => q * nano_value 1 R0 r)).
  { exists (mkposreal s Hs). intros q Hq. unfold ball in Hq; cbn in Hq; unfold AbsRing_ball in Hq; cbn in Hq.
    apply Rabs_def2 in Hq. unfold minus, plus, opp in Hq; cbn in Hq. symmetry. rewrite scale_shape.
    rewrite (Rabs_pos_eq q) by lra. reflexivity. }
  auto_derive; [exact I|]. rewrite Rmult_1_l. unfold nano_value, nano_value2, nano_jac_scale, sign. rewrite Rabs_R1.
  destruct (Rle_dec r 0); [reflexivity|]. destruct (Rle_dec (2 * R0) r); [reflexivity|].
  destruct (Rlt_dec 0 R0); [ring|contradiction].
Qed.
Print Assumptions C113_jacobian_scale.

(** ... and has the wrong sign for every negative scale at every r inside the
    particle: the code takes the sign of the radius instead of the sign of the scale. *)
Theorem C81_jacobian_scale_refuted :
  forall s R0 r f1, s < 0 -> 0 < R0 -> 0 < r < 2 * R0 ->
    exists v, nth_error (nano_jacobian s R0 r (true, f1)) 0 = Some (Some v) /\ v <> 0 /\
      derivable_pt_lim (fun q => nano_value q R0 r) s (- v).
Proof.
  intros s R0 r f1 Hs HR Hr. unfold nano_jacobian. cbn [nth_error]. eexists. split; [reflexivity|].
  destruct (Rle_dec r 0); [lra|]. destruct (Rle_dec (2 * R0) r); [lra|].
  assert (E : nano_jac_scale s R0 r = nano_value 1 R0 r).
  { unfold nano_value, nano_value2, nano_jac_scale, sign. rewrite Rabs_R1. destruct (Rle_dec r 0); [lra|]. destruct (Rle_dec (2 * R0) r); [lra|].
    destruct (Rlt_dec 0 R0); [ring|contradiction]. }
  rewrite E. split.
  - apply Rlt_not_eq. apply C31_value; lra.
  - apply is_derive_Reals. apply (is_derive_ext_loc (fun q => - q * nano_value 1 R0 r)).
    { assert (P : 0 < - s) by lra. exists (mkposreal _ P). intros q Hq. unfold ball in Hq; cbn in Hq; unfold AbsRing_ball in Hq; cbn in Hq.
      apply Rabs_def2 in Hq. unfold minus, plus, opp in Hq; cbn in Hq. symmetry. rewrite scale_shape.
      rewrite (Rabs_left q) by lra. reflexivity. }
    auto_derive; [exact I|]. ring.
Qed.
Print Assumptions C81_jacobian_scale_refuted.

(** Normal form: same curve for a nonnegative radius ... *)
Theorem C113_normal_form :
  forall s R0 r, 0 <= R0 ->
    let '(s', R') := nano_normal s R0 in
    0 <= s' /\ 0 <= R' /\ nano_value s' R' r = nano_value s R0 r /\ nano_normal s' R' = (s', R').
Proof.
  intros s R0 r HR. unfold nano_normal. rewrite !Rabs_Rabsolu. rewrite (Rabs_pos_eq R0) by exact HR.
  repeat split; auto using Rabs_pos. rewrite (scale_shape (Rabs s)), (scale_shape s). now rewrite Rabs_Rabsolu.
Qed.
Print Assumptions C113_normal_form.

(** ... and a different curve for every negative radius and nonzero scale: the value with the
    raw parameters is 0 everywhere, with the normalised parameters it is not. *)
Theorem C81_normal_form_refuted :
  forall s R0, R0 < 0 -> s <> 0 ->
    (forall r, nano_value s R0 r = 0) /\
    (let '(s', R') := nano_normal s R0 in forall r, 0 < r < 2 * R' -> nano_value s' R' r < 0) /\
    (let '(s', R') := nano_normal s R0 in exists r, 0 < r < 2 * R').
Proof.
  intros s R0 HR Hs. unfold nano_normal. split; [|split].
  - intros r. unfold nano_value. destruct (Rle_dec r 0); [reflexivity|]. destruct (Rle_dec (2 * R0) r); [reflexivity|lra].
  - intros r Hr. apply C31_value; [now apply Rabs_pos_lt, Rlt_not_eq| |exact Hr].
    apply Rgt_not_eq. now apply Rabs_pos_lt.
  - exists (- R0). rewrite Rabs_left by exact HR. lra.
Qed.
Print Assumptions C81_normal_form_refuted.

Example C31_nonvacuous : nano_value 16 1 1 = -5 /\ nano_value 16 (-1) 1 = 0 /\ nano_value_array 16 1 [-1; 1; 3] = [0; -5; 0].
Proof.
  assert (A : nano_value 16 1 1 = -5).
  { unfold nano_value, nano_value2. destruct (Rle_dec 1 0); [lra|]. destruct (Rle_dec (2 * 1) 1); [lra|].
    rewrite (Rabs_pos_eq 16), (Rabs_pos_eq 1) by lra. field. }
  split; [exact A|]. split.
  - apply C81_normal_form_refuted; lra.
  - rewrite (proj1 (C31_scalar_array_agree 16 1 [-1; 1; 3] true true ltac:(cbn; repeat split; intros b Hb; intuition lra))).
    cbn [map]. rewrite A. unfold nano_value. destruct (Rle_dec (-1) 0); [|lra]. destruct (Rle_dec 3 0); [lra|].
    destruct (Rle_dec (2 * 1) 3); [reflexivity|lra].
Qed.

(** ** C32 *)
(** An Arbitrary baseline requested with n parameters has n+1 of them. *)
Theorem C32_npars_refuted : forall n : nat, arbitrary_npars (Z.of_nat n) = Ok (n + 1)%nat.
Proof.
  intros n. unfold arbitrary_npars, arbitrary_parameterdict. destruct (Z.ltb_spec (Z.of_nat n) 0); [lia|].
  cbn [bind]. rewrite map_length, seq_length. f_equal. lia.
Qed.
Print Assumptions C32_npars_refuted.

Theorem C105_negative_rejected : forall n, (n < 0)%Z -> arbitrary_npars n = Err ValueError.
Proof. intros n H. unfold arbitrary_npars, arbitrary_parameterdict. destruct (Z.ltb_spec n 0); [reflexivity|lia]. Qed.
Print Assumptions C105_negative_rejected.

(** Without a user-supplied Jacobian, asking for one never gives the documented
    NotImplementedError (or the list of Nones) but AttributeError, for every input. *)
Theorem C32_no_jacobian_refuted : forall n pars free, arbitrary_jacobian n None pars free = Err AttributeError.
Proof. reflexivity. Qed.
Print Assumptions C32_no_jacobian_refuted.

(** With one, it is called exactly when both lengths match. *)
Theorem C105_jacobian_delegates :
  forall n f pars free,
    (length pars = n -> length free = n -> arbitrary_jacobian n (Some f) pars free = f pars free) /\
    (length pars <> n \/ length free <> n -> arbitrary_jacobian n (Some f) pars free = Err ValueError).
Proof.
  intros n f pars free. unfold arbitrary_jacobian. cbn [bind]. split.
  - intros <- ->. now rewrite !Nat.eqb_refl.
  - intros H. destruct (Nat.eqb_spec (length pars) n); [|reflexivity]. destruct (Nat.eqb_spec (length free) n); [|reflexivity].
    exfalso. tauto.
Qed.
Print Assumptions C105_jacobian_delegates.

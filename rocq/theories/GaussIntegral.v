(** The Gaussian integral: the integral of exp(-x^2) over the real line is sqrt(PI).
    Mathematics only; used for property C29. *)
From Coq Require Import Reals Lra Psatz.
From Coquelicot Require Import Coquelicot.
Open Scope R_scope.

Definition gs (x : R) : R := exp (- x ^ 2).
Definition G (t : R) : R := RInt gs 0 t.
Definition kern (t x : R) : R := exp (- (t ^ 2 * (1 + x ^ 2))) / (1 + x ^ 2).
Definition K (t : R) : R := RInt (kern t) 0 1.

Lemma gs_cont x : continuous gs x.
Proof. apply (ex_derive_continuous gs). unfold gs. auto_derive. exact I. Qed.
Lemma gs_int a b : ex_RInt gs a b.
Proof. apply (ex_RInt_continuous (V := R_CompleteNormedModule)). intros; apply gs_cont. Qed.
Lemma G_derive t : is_derive G t (gs t).
Proof. apply is_derive_RInt with 0; [|apply gs_cont]. apply filter_forall. intros x. apply (RInt_correct (V := R_CompleteNormedModule)), gs_int. Qed.
Lemma opx_pos x : 0 < 1 + x ^ 2.
Proof. pose proof (pow2_ge_0 x). lra. Qed.
Lemma kern_cont t x : continuous (kern t) x.
Proof. apply (ex_derive_continuous (kern t)). unfold kern. pose proof (opx_pos x). auto_derive. lra. Qed.
Lemma kern_int t a b : ex_RInt (kern t) a b.
Proof. apply (ex_RInt_continuous (V := R_CompleteNormedModule)). intros; apply kern_cont. Qed.
Definition dkern (t x : R) : R := - (2 * t * exp (- (t ^ 2 * (1 + x ^ 2)))).
Lemma kern_dt (t x : R) : is_derive (fun u => kern u x) t (dkern t x).
Proof. unfold kern, dkern. pose proof (opx_pos x). auto_derive; [lra|]. change (x * (x * 1)) with (x ^ 2). change (t * (t * 1)) with (t ^ 2). generalize (exp (- (t ^ 2 * (1 + x ^ 2)))). intros e. field. lra. Qed.
Lemma dkern_cont2 t x : continuity_2d_pt dkern t x.
Proof.
  unfold dkern. apply (continuity_2d_pt_ext (fun u v => - (2 * u * exp (- (u * u * (1 + v * v)))))).
  { intros u v. do 3 f_equal. f_equal. ring. }
  apply continuity_2d_pt_opp, continuity_2d_pt_mult.
  - apply continuity_2d_pt_mult; [apply continuity_2d_pt_const|apply continuity_2d_pt_id1].
  - apply (continuity_1d_2d_pt_comp exp (fun u v => - (u * u * (1 + v * v)))).
    + apply derivable_continuous_pt, derivable_pt_exp.
    + apply continuity_2d_pt_opp, continuity_2d_pt_mult.
      * apply continuity_2d_pt_mult; apply continuity_2d_pt_id1.
      * apply continuity_2d_pt_plus; [apply continuity_2d_pt_const|apply continuity_2d_pt_mult; apply continuity_2d_pt_id2].
Qed.
Lemma K_derive t : is_derive K t (RInt (dkern t) 0 1).
Proof.
  assert (E : forall u x, Derive (fun v => kern v x) u = dkern u x) by (intros; apply is_derive_unique, kern_dt).
  rewrite <- (RInt_ext (fun x => Derive (fun v => kern v x) t)) by (intros; apply E).
  apply (is_derive_RInt_param kern 0 1 t).
  - apply filter_forall. intros y x _. exists (dkern y x). apply kern_dt.
  - intros x _. apply (continuity_2d_pt_ext dkern); [intros; symmetry; apply E|apply dkern_cont2].
  - apply filter_forall. intros y. apply kern_int.
Qed.
Lemma dkern_int t : RInt (dkern t) 0 1 = - (2 * gs t * G t).
Proof.
  unfold G. pose proof (RInt_comp_lin gs t 0 0 1) as L.
  replace (t * 0 + 0) with 0 in L by ring. replace (t * 1 + 0) with t in L by ring.
  rewrite <- L by apply gs_int. 
  assert (X : forall c : R, ex_RInt (fun y => scal c (scal t (gs (t * y + 0)))) 0 1).
  { intros c. apply (ex_RInt_continuous (V := R_CompleteNormedModule)). intros z _. apply (ex_derive_continuous (fun y => scal c (scal t (gs (t * y + 0))))). unfold gs, scal; cbn; unfold mult; cbn. auto_derive. exact I. }
  assert (X1 : ex_RInt (fun y => scal t (gs (t * y + 0))) 0 1).
  { apply (ex_RInt_ext (fun y => scal 1 (scal t (gs (t * y + 0))))); [|apply X]. intros y _. unfold scal; cbn; unfold mult; cbn. ring. }
  transitivity (RInt (fun y => scal (- (2 * gs t)) (scal t (gs (t * y + 0)))) 0 1).
  2:{ rewrite (RInt_scal (V := R_CompleteNormedModule)) by exact X1. unfold scal; cbn; unfold mult; cbn. ring. }
  apply RInt_ext. intros x _. unfold dkern, gs, scal, opp; cbn; unfold mult; cbn. 
  replace (- (t * (t * 1) * (1 + x * (x * 1)))) with (- (t * (t * 1)) + - ((t * x + 0) * ((t * x + 0) * 1))) by ring.
  rewrite exp_plus. ring.
Qed.
Lemma sum_const t : G t ^ 2 + K t = PI / 4.
Proof.
  assert (D : forall u, is_derive (fun v => G v ^ 2 + K v) u 0).
  { intros u. pose proof (G_derive u) as DG. pose proof (K_derive u) as DK. rewrite dkern_int in DK.
    evar_last. { apply (is_derive_plus (fun v => G v ^ 2) K); [apply (is_derive_pow G 2 u (gs u) DG)|exact DK]. }
    unfold plus; cbn. ring. }
  assert (C : forall u, G u ^ 2 + K u = G 0 ^ 2 + K 0).
  { intros u. destruct (MVT_gen (fun v => G v ^ 2 + K v) 0 u (fun _ => 0)) as (c & _ & E).
    - intros; apply D.
    - intros x _. apply derivable_continuous_pt. exists 0. apply is_derive_Reals, D.
    - lra. }
  rewrite C. unfold G. rewrite RInt_point. unfold zero; cbn -[pow]. 
  assert (A : is_RInt (kern 0) 0 1 (atan 1 - atan 0)).
  { apply (is_RInt_derive (V := R_CompleteNormedModule) atan (kern 0)).
    - intros x _. unfold kern. evar_last; [apply is_derive_Reals, derivable_pt_lim_atan|]. replace (0 ^ 2 * (1 + x ^ 2)) with 0 by ring. rewrite Ropp_0, exp_0. unfold Rsqr. pose proof (opx_pos x). field. lra.
    - intros x _. apply kern_cont. }
  apply (is_RInt_unique (V := R_CompleteNormedModule)) in A. change (RInt (kern 0) 0 1) with (K 0) in A. rewrite atan_1, atan_0 in A. change (0 ^ 2 + K 0 = PI / 4). lra.
Qed.
Lemma K_bound t : 0 <= K t <= gs t.
Proof.
  unfold K. split.
  - apply RInt_ge_0; [lra|apply kern_int|]. intros x _. unfold kern. pose proof (opx_pos x). left. apply Rdiv_lt_0_compat; [apply exp_pos|assumption].
  - replace (gs t) with (RInt (fun _ => gs t) 0 1) by (rewrite RInt_const; unfold scal; cbn; unfold mult; cbn; ring).
    apply RInt_le; [lra|apply kern_int|apply ex_RInt_const|]. intros x _. unfold kern, gs. pose proof (pow2_ge_0 x) as X. pose proof (pow2_ge_0 t) as T.
    assert (E : exp (- (t ^ 2 * (1 + x ^ 2))) <= exp (- t ^ 2)).
    { destruct (Rle_lt_or_eq_dec (- (t ^ 2 * (1 + x ^ 2))) (- t ^ 2)) as [L|L]; [nra|left; now apply exp_increasing|right; now rewrite L]. }
    pose proof (exp_pos (- (t ^ 2 * (1 + x ^ 2)))). apply Rle_trans with (exp (- (t ^ 2 * (1 + x ^ 2)))); [|exact E].
    apply Rmult_le_reg_r with (1 + x ^ 2); [lra|]. unfold Rdiv. rewrite Rmult_assoc, Rinv_l by lra. nra.
Qed.
(** The integral from 0 to t, with an explicit error. *)
Lemma G_square t : PI / 4 - gs t <= G t ^ 2 <= PI / 4.
Proof. pose proof (sum_const t). pose proof (K_bound t). lra. Qed.
Lemma G_pos t : 0 <= t -> 0 <= G t.
Proof. intros. apply RInt_ge_0; [assumption|apply gs_int|]. intros. left. apply exp_pos. Qed.
Lemma gs_lim : is_lim gs p_infty 0.
Proof.
  apply (is_lim_le_le_loc (fun _ => 0) (fun t => exp (- t))).
  - exists 1. intros t Ht. unfold gs. split; [left; apply exp_pos|]. left. apply exp_increasing. nra.
  - apply is_lim_const.
  - apply (is_lim_comp exp Ropp p_infty 0 m_infty); [apply is_lim_exp_m|apply (is_lim_opp (fun t => t) p_infty p_infty), is_lim_id|]. exists 0. intros; discriminate.
Qed.
Theorem G_lim : is_lim G p_infty (sqrt PI / 2).
Proof.
  pose proof PI_RGT_0.
  assert (S2 : sqrt (PI / 4) = sqrt PI / 2). { rewrite sqrt_div_alt by lra. f_equal. replace 4 with (2 ^ 2) by ring. apply sqrt_pow2. lra. }
  assert (L : is_lim (fun t => PI / 4 - gs t) p_infty (PI / 4)).
  { replace (Finite (PI / 4)) with (Rbar_minus (PI / 4) 0) by (cbn; f_equal; ring). apply (is_lim_minus' (fun _ => PI / 4) gs); [apply is_lim_const|apply gs_lim]. }
  apply (is_lim_ext_loc (fun t => sqrt (G t ^ 2))). { exists 0. intros t Ht. apply sqrt_pow2, G_pos. lra. }
  rewrite <- S2. apply (filterlim_comp R R R (fun t => G t ^ 2) sqrt (Rbar_locally' p_infty) (locally (PI / 4)) (locally (sqrt (PI / 4)))); [|apply continuous_sqrt].
  change (is_lim (fun t => G t ^ 2) p_infty (PI / 4)).
  apply (is_lim_le_le_loc (fun t => PI / 4 - gs t) (fun _ => PI / 4)); [|exact L|apply is_lim_const].
  exists 0. intros t _. apply G_square.
Qed.

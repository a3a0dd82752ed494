(** C245: residuals in floating-point arithmetic. *)
From Coq Require Import Reals Lra.
From Flocq Require Import Core.
From Verif Require Import Prelude Evaluators FloatWidth FloatWidthProps FloatEval FloatEvalProps FloatOrderProps FloatResidual.
Open Scope R_scope.
#[local] Existing Instance prec_ok.
#[local] Existing Instance fexp_ok.
#[local] Existing Instance mono_ok.

(** A regular point (FloatEvalProps) whose residual and its square are 0 or not subnormal. *)
Definition regular_residual (p : R * R * R) : Prop :=
  regular p /\ let '(e, o, s) := p in e = o \/ normal (rnd (o - e) / s) /\ normal (residual_f p ^ 2).

Lemma square_near p : regular_residual p -> near 5 (let '(e, o, s) := p in (e - o) ^ 2 / s ^ 2) (sq (residual_f p)).
Proof.
  destruct p as [[e o] s]. intros ((S & NS & RG) & RR).
  assert (Z : e = o -> near 5 ((e - o) ^ 2 / s ^ 2) (sq (residual_f (e, o, s)))).
  { intros ->. cbn [residual_f]. replace (o - o) with 0 by ring. rewrite rnd_0. unfold Rdiv. rewrite Rmult_0_l, rnd_0. unfold sq. rewrite Rmult_0_l, rnd_0.
    replace (0 ^ 2) with 0 by ring. rewrite Rmult_0_l. apply near_refl. lra. }
  destruct RG as [E|(N1 & _)]; [now apply Z|]. destruct RR as [E|(N2 & N3)]; [now apply Z|].
  cbn [residual_f] in *. set (d := rnd (o - e)) in *.
  assert (A : near 1 (Rabs (e - o)) (Rabs d)).
  { rewrite Rabs_minus_sym. unfold d, rnd. rewrite <- round_NE_abs by typeclasses eauto. apply near_rnd. unfold normal in N1. now rewrite Rabs_minus_sym. }
  assert (B : near 1 (Rabs ((e - o) / s)) (Rabs (d / s))).
  { unfold Rdiv. rewrite !Rabs_mult. apply (near_mult 1 0); [exact A|]. apply near_refl, Rabs_pos. }
  assert (C : near 2 (Rabs ((e - o) / s)) (Rabs (rnd (d / s)))).
  { apply (near_trans 1 1 _ (Rabs (d / s))); [exact B|]. unfold rnd. rewrite <- round_NE_abs by typeclasses eauto. apply near_rnd. exact N2. }
  replace ((e - o) ^ 2 / s ^ 2) with (((e - o) / s) ^ 2) by (field; lra).
  apply (near_trans 4 1 _ (rnd (d / s) ^ 2)); [now apply (near_abs_square 2)|]. now apply near_sq.
Qed.

(** The residual in double precision: 0 where the model equals the data, its sign is never
    wrong, and it never grows with the calculated value.  The sum of its squares, which the
    optimiser minimises, and chi-square, which the evaluators judge the result by, are
    each at most 1 + (2n + 8) * 2^-51 times the other, for n points without underflow. *)
Theorem C245_residual_in_double_precision :
  (forall e o s, 0 < s ->
     (e = o -> residual_f (e, o, s) = 0) /\ (e <= o -> 0 <= residual_f (e, o, s)) /\ (o <= e -> residual_f (e, o, s) <= 0) /\
     (forall e', e <= e' -> residual_f (e', o, s) <= residual_f (e, o, s))) /\
  (forall ps c c', (forall p, In p ps -> regular_residual p) -> (Z.of_nat (length ps) <= 2 ^ 49)%Z ->
     sum_squares_f ps c -> chi_squared_f ps c' ->
     let tol := 1 + IZR (2 * Z.of_nat (length ps) + 8) * bpow radix2 (-51) in c <= c' * tol /\ c' <= c * tol).
Proof.
  split.
  - intros e o s S. assert (I : 0 < / s) by now apply Rinv_0_lt_compat.
    assert (M : forall a b, a <= b -> rnd (rnd a / s) <= rnd (rnd b / s)).
    { intros a b H. apply rnd_le. unfold Rdiv. apply Rmult_le_compat_r; [lra|]. now apply rnd_le. }
    assert (Z : rnd (rnd 0 / s) = 0) by (rewrite rnd_0; unfold Rdiv; now rewrite Rmult_0_l, rnd_0).
    cbn [residual_f]. split; [intros ->; now replace (o - o) with 0 by ring|]. split; [intros H; rewrite <- Z; apply M; lra|].
    split; [intros H; rewrite <- Z; apply M; lra|]. intros e' H. apply M. lra.
  - intros ps c c' RG L S1 S2 tol.
    assert (R1 : Forall regular ps) by (apply Forall_forall; intros p Hp; now apply RG).
    assert (NT : near 5 (chi_squared ps) (total (map (fun p => sq (residual_f p)) ps))).
    { clear -RG. unfold chi_squared, total. induction ps as [|p ps IH]; [apply near_refl; cbn; lra|]. cbn [map fold_right]. apply near_plus; [apply square_near, RG; now left|apply IH; intros q Hq; apply RG; now right]. }
    assert (F1 : Forall nonneg_float (map (fun p => sq (residual_f p)) ps)).
    { apply Forall_map, Forall_forall. intros p _. split; [apply rnd_float|apply sq_pos]. }
    assert (F2 : Forall nonneg_float (map term_f ps)).
    { apply Forall_map. rewrite Forall_forall in *. intros [[e o] s] Hp. apply term_nonneg. cbn [snd]. destruct (R1 _ Hp) as (P & N & _).
      pose proof (near_sq s N) as (_ & A & C & _). destruct A as [A|A]; [exact A|]. rewrite <- A in C. assert (0 < s ^ 2) by now apply pow_lt. lra. }
    destruct (summed_facts _ _ S1 F1) as (_ & A1 & _). destruct (summed_facts _ _ S2 F2) as (_ & A2 & _). rewrite !map_length in A1, A2.
    assert (B1 : near (5 + (length ps - 1)) (chi_squared ps) c) by (eapply near_trans; [exact NT|exact A1]).
    assert (B2 : near (5 + (length ps - 1)) (chi_squared ps) c') by (eapply near_trans; [apply terms_near, R1|exact A2]).
    assert (D : near (2 * length ps + 8) c c').
    { destruct ps as [|p ps].
      - assert (c = 0) by (destruct A1 as (_ & _ & _ & X); unfold total in X; cbn in X; destruct B1 as (_ & Y & _); lra).
        assert (c' = 0) by (destruct A2 as (_ & _ & _ & X); unfold total in X; cbn in X; destruct B2 as (_ & Y & _); lra).
        subst c c'. apply near_refl. lra.
      - eapply near_weaken; [|eapply near_trans; [apply near_sym, B1|exact B2]]. cbn [length]. lia. }
    assert (T : (1 + 2 * u) ^ (2 * length ps + 8) <= tol).
    { eapply Rle_trans; [apply grow_linear; change (bpow radix2 51) with (IZR (2 ^ 51)); apply IZR_le; lia|]. apply Req_le. unfold tol. do 3 f_equal. lia. }
    destruct D as (C & C' & D1 & D2). split.
    + eapply Rle_trans; [exact D1|]. now apply Rmult_le_compat_l.
    + eapply Rle_trans; [exact D2|]. now apply Rmult_le_compat_l.
Qed.
Print Assumptions C245_residual_in_double_precision.
Example C245_nonvacuous :
  (forall p, In p [(1, 0, 1); (2, 2, 1)] -> regular_residual p) /\ residual_f (1, 0, 1) = -1 /\
  exists c c', sum_squares_f [(1, 0, 1); (2, 2, 1)] c /\ chi_squared_f [(1, 0, 1); (2, 2, 1)] c'.
Proof.
  destruct C233_nonvacuous as (c' & S & G & _).
  assert (V : residual_f (1, 0, 1) = -1) by (cbn; replace (0 - 1) with (-1) by ring; rewrite (rnd_id (-1) is_m1); replace (-1 / 1) with (-1) by field; apply rnd_id, is_m1).
  assert (N1 : normal 1) by (unfold normal; rewrite Rabs_right by lra; change 1 with (bpow radix2 0); apply bpow_le; lia).
  split; [|split; [exact V|]].
  - intros p Hp. split; [now apply G|]. destruct Hp as [<-|[<-|[]]]; [right|now left].
    rewrite V. replace (0 - 1) with (-1) by ring. rewrite (rnd_id (-1) is_m1). unfold normal in *. split.
    + replace (-1 / 1) with (- (1)) by field. now rewrite Rabs_Ropp.
    + now replace ((-1) ^ 2) with 1 by ring.
  - destruct (summed_exists (map (fun p => sq (residual_f p)) [(1, 0, 1); (2, 2, 1)])) as [c Hc]. exists c, c'. split; assumption.
Qed.

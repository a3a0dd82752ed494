(** C228: estimates do not depend on the units of the data. *)
From Coq Require Import Reals Lra.
From Verif Require Import Prelude PeakFuncs Baselines Estimate EstimateProps EstimateUnits.
Open Scope R_scope.

(** For all data, all maximal widths [W] and all positive factors: the same error is raised;
    otherwise the estimated position is the same point, the width parameter is the same (it
    stands for the same fraction of the maximal width, which is also measured in the new
    units), and the area is in the new units: intensity times distance for Gaussian,
    intensity times distance squared for GaussianOverR, whose curve is divided by the
    distance and which therefore has a fixed origin.  A non-finite estimate stays one. *)
Theorem C228_estimates_do_not_depend_on_units :
  forall (over_r : bool) W r y k a b,
  0 < k -> 0 < a -> (over_r = true -> b = 0) ->
  match estimate_parameters over_r W r y, estimate_parameters over_r (a * W) (map (fun t => a * t + b) r) (map (fun v => k * v) y) with
  | Err e, Err e' => e = e'
  | Ok None, Ok None => True
  | Ok (Some p), Ok (Some p') =>
      p_pos p' = a * p_pos p + b /\ p_wid p' = p_wid p /\ p_area p' = k * (if over_r then a ^ 2 else a) * p_area p
  | _, _ => False
  end.
Proof.
  intros over_r W r y k a b K A B. unfold estimate_parameters. rewrite !map_length.
  destruct (Nat.eqb_spec (length r) (length y)) as [L|L]; [|reflexivity]. cbn [negb].
  change (map (fun v => k * v) y) with (map (Rmult k) y). rewrite usable_scale by exact K.
  destruct (Nat.ltb_spec (length (usable_idx y)) 3) as [S|S]; [reflexivity|].
  rewrite take_scale, (take_map (fun t => a * t + b)) by (intros i I; rewrite L; now apply usable_range).
  set (u := take_idx r (usable_idx y)). set (v := take_idx y (usable_idx y)).
  assert (LU : length u = length v) by (unfold u, v, take_idx; now rewrite !map_length).
  assert (NU : u <> []) by (intros E; apply (f_equal (@length R)) in E; unfold u, take_idx in E; rewrite map_length in E; cbn in E; lia).
  change (map (fun t => a * t + b) u) with (map (unit_r a b) u).
  rewrite (position_units k a b K A u v LU NU), rmax_scale by exact K.
  destruct (position_width u v) as [[c w]|]; cbn [xbind]; [|exact I].
  rewrite (limit_units k a b K A over_r W (rmax_list v) c w B).
  destruct (limit_width over_r W (rmax_list v) (c, w)) as [p|]; [|exact I]. cbn. now repeat split.
Qed.

Lemma dot_scale k a l : forall m, dot (map (Rmult a) l) (map (Rmult k) m) = k * a * dot l m.
Proof.
  induction l as [|u l IH]; intros [|v m]; try (unfold dot; cbn; ring). specialize (IH m). unfold dot in *.
  cbn [map combine rsum fold_right fst snd]. unfold rsum in IH. rewrite IH. ring.
Qed.
(** The slope of an estimated baseline is in intensity per distance.  The sort must put the
    scaled values in the same order as the values (numpy's does: it is deterministic and
    compares only). *)
Theorem C228_estimated_baseline_does_not_depend_on_units :
  forall argsort degree r y k a, 0 < a -> argsort (map (fun v => k * v) y) = argsort y ->
  match poly_estimate argsort degree r y, poly_estimate argsort degree (map (fun t => a * t) r) (map (fun v => k * v) y) with
  | Err e, Err e' => e = e'
  | Ok l, Ok l' => forall x, match poly_value degree l x, poly_value degree l' (a * x) with
                             | Ok v, Ok v' => v' = k * v
                             | _, _ => False
                             end
  | _, _ => False
  end.
Proof.
  intros argsort degree r y k a A S. unfold poly_estimate. rewrite !map_length, S.
  destruct (Z.ltb_spec 1 (poly_degree degree)) as [D|D]; [reflexivity|].
  destruct (Nat.eqb_spec (length r) (length y)) as [L|L]; [|reflexivity]. cbn [negb].
  assert (P : (poly_degree degree = -1)%Z \/ (poly_degree degree = 0)%Z \/ (poly_degree degree = 1)%Z) by (unfold poly_degree in *; destruct (Z.ltb_spec degree 0); lia).
  assert (NP : poly_npars degree = Z.to_nat (poly_degree degree + 1)) by (unfold poly_npars, poly_parameterdict; now rewrite map_length, seq_length).
  unfold poly_value. rewrite NP. destruct P as [E|[E|E]]; rewrite E.
  - intros x. cbn. symmetry. apply Rmult_0_r.
  - intros x. cbn. change ((0 * (a * x) + 0)%R = (k * (0 * x + 0))%R). ring.
  - change (map (fun v => k * v) y) with (map (Rmult k) y). change (map (fun t => a * t) r) with (map (Rmult a) r).
    rewrite !take_scale. unfold lstsq1. rewrite !dot_scale.
    set (X := take_idx r _). set (Y := take_idx y _).
    destruct (Req_EM_T (a * a * dot X X) 0) as [Z1|N1], (Req_EM_T (dot X X) 0) as [Z2|N2]; generalize dependent (dot X X); generalize (dot X Y); clear X Y; intros XY XX H1 H2 x; change (Z.to_nat (1 + 1)) with 2%nat; cbn [length Nat.eqb negb]; unfold polyval; cbn [fold_left].
    + ring.
    + exfalso. apply Rmult_integral in H1. destruct H1 as [H1|H1]; [nra|contradiction].
    + exfalso. apply H1. rewrite H2. ring.
    + field. split; [exact H2|lra].
Qed.

(** Four points, one of them below zero, in counts per angstrom; and the same in thousands of
    counts, in nanometres, from another origin. *)
Example C228_nonvacuous :
  exists p p', estimate_parameters false 2 [1; 2; 3; 4] [1; 3; -2; 2] = Ok (Some p) /\ 0 < p_area p /\
    estimate_parameters false (1 / 10 * 2) (map (fun t => 1 / 10 * t + 7) [1; 2; 3; 4]) (map (fun v => 1000 * v) [1; 3; -2; 2]) = Ok (Some p') /\
    p_pos p' = 1 / 10 * p_pos p + 7 /\ p_wid p' = p_wid p /\ p_area p' = 1000 * (1 / 10) * p_area p.
Proof.
  destruct C136_nonvacuous as (St & N & M).
  destruct (C136_estimate_matches_the_data false 2 [1; 2; 3; 4] [1; 3; -2; 2] 3 ltac:(lra) St eq_refl N ltac:(discriminate) M) as (p & E & _ & _ & PA).
  pose proof (C228_estimates_do_not_depend_on_units false 2 [1; 2; 3; 4] [1; 3; -2; 2] 1000 (1 / 10) 7 ltac:(lra) ltac:(lra) ltac:(discriminate)) as H.
  rewrite E in H. exists p. destruct (estimate_parameters false (1 / 10 * 2) _ _) as [[p'|]|]; [|contradiction|contradiction].
  exists p'. destruct H as (H1 & H2 & H3). now repeat split.
Qed.

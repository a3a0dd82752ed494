(** Property C43 (Peaks.match_at). *)
From Coq Require Import Reals Lra.
From Verif Require Import Prelude MatchAt.
From Verif Require Import PeakFuncs PeakFuncsProofs PeakFuncsMore PeakFuncsProps PeakMaxProps PeakScaleProps.
Open Scope R_scope.

(** Specification: the total height of a list of peaks at x. *)
Fixpoint total {P} (value : P -> R -> R) (ps : list P) (x : R) : R :=
  match ps with [] => 0 | p :: r => value p x + total value r x end.

(** [rescaled_by k ps ps']: the lists correspond peak by peak, each peak either the same or
    the outcome of scaling it at x by k; [moved] tells which. *)
Inductive rescaled_by {P} (scale_at : P -> R -> R -> result (option P)) (x k : R) : list P -> list P -> list bool -> Prop :=
| rb_nil : rescaled_by scale_at x k [] [] []
| rb_yes p p' l l' b : scale_at p x k = Ok (Some p') -> rescaled_by scale_at x k l l' b ->
    rescaled_by scale_at x k (p :: l) (p' :: l') (true :: b)
| rb_no p l l' b : rescaled_by scale_at x k l l' b -> rescaled_by scale_at x k (p :: l) (p :: l') (false :: b).

(** Height at x of the peaks that a scaling by k does not accept. *)
Fixpoint unscalable {P} (value : P -> R -> R) (scale_at : P -> R -> R -> result (option P)) (x k : R) (ps : list P) : R :=
  match ps with
  | [] => 0
  | p :: r => (match scale_at p x k with Ok None => value p x | _ => 0 end) + unscalable value scale_at x k r
  end.

Section Proofs.
Context {P : Type}.
Variable value : P -> R -> R.
Variable scale_at : P -> R -> R -> result (option P).

Lemma fold_total ps x : forall t, fold_left (fun t p => t + value p x) ps t = t + total value ps x.
Proof. induction ps as [|p ps IH]; intros t; cbn [fold_left total]; [lra|]. rewrite IH. lra. Qed.
Lemma sum_total ps x : sum_at value ps x = total value ps x.
Proof. unfold sum_at. rewrite fold_total. lra. Qed.

Lemma first_ok ps x s ps' sc fh : first_attempt value scale_at ps x s = Ok (ps', sc, fh) ->
  rescaled_by scale_at x s ps ps' sc /\ fh = unscalable value scale_at x s ps /\
  length sc = length ps /\
  (forall i p, nth_error ps i = Some p -> exists o, scale_at p x s = Ok o /\ nth_error sc i = Some (match o with Some _ => true | None => false end)).
Proof.
  revert ps' sc fh. induction ps as [|p ps IH]; intros ps' sc fh; cbn [first_attempt].
  - intros [= <- <- <-]. repeat split; auto using rb_nil. intros [|] ? [=].
  - destruct (scale_at p x s) as [o|e] eqn:E; cbn [bind]; [|discriminate].
    destruct (first_attempt value scale_at ps x s) as [[[l b] f]|e]; cbn [bind]; [|discriminate].
    destruct (IH l b f eq_refl) as (R1 & R2 & R3 & R4).
    destruct o as [p'|]; intros [= <- <- <-]; cbn [unscalable length]; rewrite E.
    + split; [now constructor|]. split; [lra|]. split; [lia|]. intros [|i] q; cbn; [intros [= <-]; eauto|apply R4].
    + split; [now constructor|]. split; [lra|]. split; [lia|]. intros [|i] q; cbn; [intros [= <-]; eauto|apply R4].
Qed.

Lemma rescaled_none x k ps ps' sc : rescaled_by scale_at x k ps ps' sc -> any_true sc = false -> ps' = ps.
Proof.
  induction 1; cbn; intros HF; [reflexivity|discriminate|]. f_equal. now apply IHrescaled_by.
Qed.

(** The height after scaling by k: k times the scaled part plus the rest. *)
Lemma rescaled_total x k ps ps' sc :
  (forall p p', scale_at p x k = Ok (Some p') -> value p' x = k * value p x) ->
  rescaled_by scale_at x k ps ps' sc ->
  (forall i p, nth_error ps i = Some p -> exists o, scale_at p x k = Ok o /\ nth_error sc i = Some (match o with Some _ => true | None => false end)) ->
  total value ps' x = k * (total value ps x - unscalable value scale_at x k ps) + unscalable value scale_at x k ps.
Proof.
  intros C. induction 1 as [|p p' l l' b E R IH|p l l' b R IH]; intros N; cbn [total unscalable].
  - lra.
  - rewrite (C _ _ E), E. rewrite IH by (intros i q; apply (N (S i))). lra.
  - destruct (N 0%nat p eq_refl) as (o & E & F). cbn in F. destruct o; [discriminate|]. rewrite E.
    rewrite IH by (intros i q; apply (N (S i))). lra.
Qed.

Lemma all_true_unscalable x k ps ps' sc : rescaled_by scale_at x k ps ps' sc ->
  all_true sc = true -> unscalable value scale_at x k ps = 0.
Proof.
  induction 1 as [|p p' l l' b E R IH|p l l' b R IH]; cbn [unscalable]; intros A; [reflexivity| |discriminate].
  rewrite E. cbn in A. rewrite IH by exact A. lra.
Qed.
Lemma all_any sc : sc <> [] -> all_true sc = true -> any_true sc = true.
Proof. destruct sc as [|[|] l]; cbn; congruence. Qed.
End Proofs.

(** ** Returning False means nothing changed; whatever scale_at does, including raising. *)
Theorem C43_false_unchanged :
  forall (P : Type) value scale_at (ps ps' : list P) x y,
    match_at value scale_at ps x y = (ps', false) -> ps' = ps.
Proof.
  intros P value scale_at ps ps' x y. unfold match_at. destruct (Req_EM_T _ 0); [now intros [= ->]|].
  set (k := y / _). destruct (first_attempt value scale_at ps x k) as [[[l b] f]|e] eqn:E; cbn [bind]; [|now intros [= ->]].
  apply first_ok in E as (R1 & _ & L & _).
  assert (D : forall q, (l, any_true b) = (q, false) -> q = ps).
  { intros q [= <- A]. eapply rescaled_none; eauto. }
  destruct (all_true b); cbn [negb]; [apply D|]. destruct (Rlt_dec f y); [|apply D]. destruct (Rlt_dec f _); [|apply D].
  unfold second_attempt. destruct ps as [|a [|c [|]]]; try (now intros [= ->]); destruct b as [|s1 [|s2 [|]]]; try (now intros [= ->]).
  destruct (scale_at a x _) as [o|]; cbn [bind]; [|now intros [= ->]]. destruct s2; [now intros [= ->]|].
  destruct o; intros H; injection H; [discriminate|now intros ->].
Qed.
Print Assumptions C43_false_unchanged.

(** ** Every peak can be scaled: the sum at x becomes exactly y and the answer is True. *)
Theorem C43_all_scalable :
  forall (P : Type) (value : P -> R -> R) scale_at (ps : list P) x y,
    (forall p k p', scale_at p x k = Ok (Some p') -> value p' x = k * value p x) ->
    total value ps x <> 0 ->
    (forall p, In p ps -> exists p', scale_at p x (y / total value ps x) = Ok (Some p')) ->
    exists ps', match_at value scale_at ps x y = (ps', true) /\ total value ps' x = y /\
      Forall2 (fun p p' => scale_at p x (y / total value ps x) = Ok (Some p')) ps ps'.
Proof.
  intros P value scale_at ps x y C H A. unfold match_at. rewrite sum_total.
  destruct (Req_EM_T _ 0); [contradiction|]. set (k := y / _) in *.
  assert (F : exists ps', first_attempt value scale_at ps x k = Ok (ps', map (fun _ => true) ps, 0) /\
     Forall2 (fun p p' => scale_at p x k = Ok (Some p')) ps ps').
  { clear H n. clearbody k. induction ps as [|p ps IH]; [exists []; split; [reflexivity|constructor]|].
    destruct (A p (or_introl eq_refl)) as [p' E]. destruct IH as (l & E2 & F2); [intros q Q; apply A; now right|].
    exists (p' :: l). cbn [first_attempt map]. rewrite E. cbn [bind]. rewrite E2. cbn [bind]. split; [reflexivity|now constructor]. }
  destruct F as (ps' & E & F2). rewrite E. cbn [bind].
  assert (AT : all_true (map (fun _ => true) ps) = true) by (clear; induction ps; auto).
  rewrite AT. cbn [negb]. destruct (first_ok _ _ _ _ _ _ _ _ E) as (R1 & R2 & R3 & R4).
  rewrite all_any; [|destruct ps; cbn; [cbn in H; lra|discriminate]|exact AT].
  exists ps'. split; [reflexivity|]. split; [|exact F2].
  rewrite (rescaled_total value scale_at x k ps ps' _ (fun p p' => C p k p') R1 R4), <- R2. unfold k. field. exact H.
Qed.
Print Assumptions C43_all_scalable.

(** ** What True means in general: every peak is unchanged or scaled at x by one common
    factor, at least one is scaled, and the sum is y -- unless the heights of the peaks
    that refuse the factor y/height already reach y or the whole sum. *)
Theorem C43_true_effect :
  forall (P : Type) (value : P -> R -> R) scale_at (ps ps' : list P) x y,
    (forall p k p', scale_at p x k = Ok (Some p') -> value p' x = k * value p x) ->
    match_at value scale_at ps x y = (ps', true) ->
    let height := total value ps x in
    let fixed := unscalable value scale_at x (y / height) ps in
    height <> 0 /\
    exists k moved, rescaled_by scale_at x k ps ps' moved /\ In true moved /\
      (total value ps' x = y \/
       (k = y / height /\ (y <= fixed \/ height <= fixed) /\ total value ps' x = k * (height - fixed) + fixed)).
Proof.
  intros P value scale_at ps ps' x y C. unfold match_at. rewrite sum_total. cbv zeta.
  destruct (Req_EM_T _ 0) as [|H]; [discriminate|]. set (k := y / _) in *.
  intros E0. split; [exact H|]. revert E0.
  destruct (first_attempt value scale_at ps x k) as [[[l b] f]|e] eqn:E; cbn [bind]; [|discriminate].
  apply first_ok in E as (R1 & -> & L & R4).
  pose proof (rescaled_total value scale_at x k ps l b (fun p p' => C p k p') R1 R4) as T.
  assert (IT : forall c, any_true c = true -> In true c).
  { intros c. unfold any_true. rewrite existsb_exists. intros (z & I & ->). exact I. }
  set (F := unscalable value scale_at x k ps) in *.
  assert (DD : (all_true b = true \/ (y <= F \/ total value ps x <= F)) -> (l, any_true b) = (ps', true) ->
    exists k0 moved, rescaled_by scale_at x k0 ps ps' moved /\ In true moved /\
      (total value ps' x = y \/ (k0 = k /\ (y <= F \/ total value ps x <= F) /\ total value ps' x = k0 * (total value ps x - F) + F))).
  { intros W [= <- A]. exists k, b. split; [exact R1|]. split; [now apply IT|].
    destruct W as [W|W]; [left|right; auto].
    pose proof (all_true_unscalable value scale_at x k ps l b R1 W) as Z. fold F in Z. rewrite T, Z. unfold k. field. exact H. }
  destruct (all_true b) eqn:AT; cbn [negb]; [apply DD; auto|].
  destruct (Rlt_dec F y) as [Q1|Q1]; [|apply DD; right; left; lra].
  destruct (Rlt_dec F _) as [Q2|Q2]; [|apply DD; right; right; lra].
  unfold second_attempt. destruct ps as [|a [|c [|]]]; try discriminate; destruct b as [|s1 [|s2 [|]]]; try discriminate.
  set (k2 := (y - F) / (_ - F)). destruct (scale_at a x k2) as [o|] eqn:E2; cbn [bind]; [|discriminate].
  destruct s2; [discriminate|]. destruct o as [a'|]; [|discriminate]. intros [= <-].
  exists k2, [true; false]. split; [constructor; [exact E2|repeat constructor]|]. split; [now left|]. left.
  cbn [total]. rewrite (C _ _ _ E2).
  destruct (R4 0%nat a eq_refl) as (o1 & A1 & A2). destruct (R4 1%nat c eq_refl) as (o2 & B1 & B2). cbn in A2, B2.
  destruct o2; [discriminate|].
  assert (FE : F = (match o1 with Some _ => 0 | None => value a x end) + value c x).
  { unfold F, unscalable. rewrite A1, B1. destruct o1; lra. }
  assert (TE : total value [a; c] x = value a x + value c x) by (cbn [total]; lra).
  rewrite TE in Q2. destruct o1; [|exfalso; lra].
  assert (KE : k2 = (y - value c x) / value a x) by (unfold k2; rewrite TE, FE; f_equal; [lra|f_equal; lra]).
  rewrite KE. field. lra.
Qed.
Print Assumptions C43_true_effect.

(** ** The documented second attempt works for two peaks of which only the first scales ... *)
Theorem C43_second_attempt_two_peaks :
  forall (P : Type) (value : P -> R -> R) scale_at (a b a1 a2 : P) x y,
    (forall p k p', scale_at p x k = Ok (Some p') -> value p' x = k * value p x) ->
    total value [a; b] x <> 0 ->
    scale_at a x (y / total value [a; b] x) = Ok (Some a1) ->
    scale_at b x (y / total value [a; b] x) = Ok None ->
    value b x < y -> 0 < value a x ->
    scale_at a x ((y - value b x) / value a x) = Ok (Some a2) ->
    match_at value scale_at [a; b] x y = ([a2; b], true) /\ total value [a2; b] x = y.
Proof.
  intros P value scale_at a b a1 a2 x y C H A B Hy Ha A2.
  unfold match_at. rewrite sum_total. destruct (Req_EM_T _ 0); [contradiction|].
  unfold first_attempt. rewrite A. cbn [bind]. rewrite B. cbn [bind].
  cbn [all_true forallb andb negb].
  assert (T : total value [a; b] x = value a x + value b x) by (cbn [total]; lra). rewrite !T.
  destruct (Rlt_dec (value b x + 0) y) as [_|N]; [|lra].
  destruct (Rlt_dec (value b x + 0) _) as [_|N]; [|lra].
  unfold second_attempt.
  replace ((y - (value b x + 0)) / (value a x + value b x - (value b x + 0))) with ((y - value b x) / value a x)
    by (f_equal; [|f_equal]; lra).
  rewrite A2. cbn [bind]. split; [reflexivity|]. cbn [total]. rewrite (C _ _ _ A2). field. lra.
Qed.
Print Assumptions C43_second_attempt_two_peaks.

(** ... and never otherwise: with any other number of peaks, as soon as some (not all) of
    the peaks refuse the factor and the second attempt is due, nothing is scaled. *)
Theorem C87_second_attempt_refuted :
  forall (P : Type) (value : P -> R -> R) scale_at (ps : list P) x y,
    length ps <> 2%nat ->
    (forall p, In p ps -> exists o, scale_at p x (y / total value ps x) = Ok o) ->
    (exists p, In p ps /\ scale_at p x (y / total value ps x) = Ok None) ->
    unscalable value scale_at x (y / total value ps x) ps < y ->
    unscalable value scale_at x (y / total value ps x) ps < total value ps x ->
    match_at value scale_at ps x y = (ps, false).
Proof.
  intros P value scale_at ps x y L A (p0 & I0 & N0) Q1 Q2. unfold match_at. rewrite sum_total.
  destruct (Req_EM_T _ 0); [reflexivity|]. set (k := y / _) in *.
  assert (F : exists l b f, first_attempt value scale_at ps x k = Ok (l, b, f)).
  { clear L N0 I0 p0 Q1 Q2 n. clearbody k. induction ps as [|p ps IH]; [now exists [], [], 0|].
    destruct (A p (or_introl eq_refl)) as [o E]. destruct IH as (l & b & f & E2); [intros q Q; apply A; now right|].
    cbn [first_attempt]. rewrite E. cbn [bind]. rewrite E2. cbn [bind]. destruct o; eauto. }
  destruct F as (l & b & f & E). rewrite E. cbn [bind]. apply first_ok in E as (R1 & -> & L1 & R4).
  assert (AT : all_true b = false).
  { apply In_nth_error in I0 as [i I0]. destruct (R4 _ _ I0) as (o & O1 & O2). rewrite N0 in O1. injection O1 as <-.
    destruct (all_true b) eqn:Z; [|reflexivity]. unfold all_true in Z. rewrite forallb_forall in Z.
    apply nth_error_In in O2. apply Z in O2. discriminate. }
  rewrite AT. cbn [negb]. destruct (Rlt_dec _ y); [|contradiction]. destruct (Rlt_dec _ (total value ps x)); [|contradiction].
  unfold second_attempt. destruct ps as [|a [|c [|]]]; try reflexivity. now destruct L.
Qed.
Print Assumptions C87_second_attempt_refuted.

(** A toy peak: height at x, and whether it may be scaled. *)
Definition toy_value (p : R * bool) (x : R) : R := fst p.
Definition toy_scale (p : R * bool) (x k : R) : result (option (R * bool)) :=
  if snd p then Ok (Some (k * fst p, true)) else Ok None.
Lemma toy_contract x : forall p k p', toy_scale p x k = Ok (Some p') -> toy_value p' x = k * toy_value p x.
Proof. intros [h b] k p'. unfold toy_scale, toy_value. destruct b; cbn; [|discriminate]. now intros [= <-]. Qed.

(** Two free peaks (heights 1, 1) and a fixed one (2) should become 2: scaling the free
    ones by (2.5-2)/2 is possible, but nothing happens. *)
Example C43_second_attempt_instance :
  match_at toy_value toy_scale [(1, true); (1, true); (2, false)] 0 (5/2) = ([(1, true); (1, true); (2, false)], false).
Proof.
  apply C87_second_attempt_refuted.
  - discriminate.
  - intros [h b] _. unfold toy_scale. destruct b; eexists; reflexivity.
  - exists (2, false). split; [cbn; auto|reflexivity].
  - unfold unscalable, toy_scale, toy_value. cbn. lra.
  - unfold unscalable, toy_scale, toy_value. cbn. lra.
Qed.

(** True may be returned although the sum is not y: heights 1 (free) and 2 (fixed) matched
    to 1 become 1/3 and 2. *)
Theorem C87_true_means_matched_refuted :
  exists (ps ps' : list (R * bool)) y, match_at toy_value toy_scale ps 0 y = (ps', true) /\
    (forall p k p', toy_scale p 0 k = Ok (Some p') -> toy_value p' 0 = k * toy_value p 0) /\
    total toy_value ps' 0 <> y.
Proof.
  exists [(1, true); (2, false)], [(1 / (0 + 1 + 2) * 1, true); (2, false)], 1. split; [|split].
  - unfold match_at, sum_at. cbn [fold_left toy_value fst snd].
    destruct (Req_EM_T _ 0); [lra|]. unfold first_attempt, toy_scale, toy_value. cbn [snd fst bind all_true forallb andb negb].
    destruct (Rlt_dec (2 + 0) 1); [lra|]. reflexivity.
  - apply toy_contract.
  - unfold toy_value. cbn [total fst]. lra.
Qed.
Print Assumptions C87_true_means_matched_refuted.

Example C43_nonvacuous_toy : exists ps', match_at toy_value toy_scale [(1, true); (2, true)] 0 2 = (ps', true) /\ total toy_value ps' 0 = 2.
Proof.
  destruct (C43_all_scalable (R * bool) toy_value toy_scale [(1, true); (2, true)] 0 2 (toy_contract 0)) as (l & A & B & _).
  - unfold toy_value. cbn. lra.
  - intros p [<-|[<-|[]]]; unfold toy_scale; cbn; eexists; reflexivity.
  - eauto.
Qed.
Example C43_nonvacuous_second : match_at toy_value toy_scale [(1, true); (2, false)] 0 4 = ([((4 - 2) / 1 * 1, true); (2, false)], true)
  /\ total toy_value [((4 - 2) / 1 * 1, true); (2, false)] 0 = 4.
Proof.
  apply (C43_second_attempt_two_peaks (R * bool) toy_value toy_scale (1, true) (2, false) (4 / (1 + (2 + 0)) * 1, true));
    try (apply toy_contract); try reflexivity; unfold toy_value; cbn; lra.
Qed.

(** ** GaussianOverR peaks *)
(** A peak: internal parameters and free flags; NaN results are kept out (see below). *)
Definition gpeak : Type := (pars3 * (bool * bool * bool))%type.
Definition gor_at (W : R) (p : gpeak) (x : R) : R := match gor_value W (fst p) x with Some v => v | None => 0 end.
(** Peak.scale_at for GaussianOverR.  Outcomes with a NaN parameter are not represented:
    the theorem below asks that every scaling gives finite parameters. *)
Definition gor_peak_scale (W : R) (p : gpeak) (x k : R) : result (option gpeak) :=
  match peak_scale_at (gor_scale_at W) (fst p) (snd p) x k with
  | Ok (true, X3 (Some a) (Some b) (Some c)) => Ok (Some (P3 a b c, snd p))
  | Ok (true, _) => Err GenericException
  | Ok (false, _) => Ok None
  | Err e => Err e
  end.

Theorem C43_gaussianoverr :
  forall W x y (ps : list gpeak), 0 < W -> x <> 0 -> (forall p, In p ps -> degenerate (fst p) = false) ->
    total (gor_at W) ps x <> 0 -> y / total (gor_at W) ps x <> 1 ->
    (forall p, In p ps -> exists q, peak_scale_at (gor_scale_at W) (fst p) (snd p) x (y / total (gor_at W) ps x) = Ok (true, inject q)) ->
    exists ps', match_at (gor_at W) (gor_peak_scale W) ps x y = (ps', true) /\ total (gor_at W) ps' x = y /\
      Forall2 (fun p p' => exists m h, gor_max W (fst p) = Ok (m, Some h) /\ gor_value W (fst p') m = Some h) ps ps'.
Proof.
  intros W x y ps HW Hx D H K1 A. set (k := y / total (gor_at W) ps x) in *.
  assert (A' : forall p, In p ps -> exists q, peak_scale_at (gor_scale_at W) (fst p) (snd p) x k = Ok (true, inject q)) by exact A.
  (* the contract, for this factor and these peaks *)
  assert (SC : forall p q, In p ps -> peak_scale_at (gor_scale_at W) (fst p) (snd p) x k = Ok (true, inject q) ->
     gor_at W (q, snd p) x = k * gor_at W p x /\ exists m h, gor_max W (fst p) = Ok (m, Some h) /\ gor_value W q m = Some h).
  { intros p q I E. destruct (C27_peak_all_or_nothing _ _ _ _ _ _ _ E) as (_ & T). destruct (T eq_refl) as (E2 & _).
    assert (Kp : 0 < k). { unfold gor_scale_at in E2. destruct (Rle_dec k 0); [discriminate|]. lra. }
    destruct (C27_gaussianoverr_scale_at W (fst p) x k q HW Kp K1 (D p I) E2) as (m & h & M & V & S2 & _).
    destruct (S2 Hx) as (v & V1 & V2). split; [|eauto]. unfold gor_at. cbn [fst]. rewrite V1, V2. reflexivity. }
  unfold match_at. rewrite sum_total. destruct (Req_EM_T _ 0); [contradiction|]. fold k.
  assert (F : exists ps', first_attempt (gor_at W) (gor_peak_scale W) ps x k = Ok (ps', map (fun _ => true) ps, 0) /\
     total (gor_at W) ps' x = k * total (gor_at W) ps x /\
     Forall2 (fun p p' => exists m h, gor_max W (fst p) = Ok (m, Some h) /\ gor_value W (fst p') m = Some h) ps ps').
  { clear H n A K1 D. clearbody k. induction ps as [|p ps IH]; [exists []; split; [reflexivity|split; [cbn [total]; lra|constructor]]|].
    destruct (A' p (or_introl eq_refl)) as [q E].
    destruct IH as (l & E2 & T2 & F2); [intros r Q; apply A'; now right|intros r s Q; apply SC; now right|].
    destruct (SC p q (or_introl eq_refl) E) as (V & M).
    exists ((q, snd p) :: l). cbn [first_attempt map].
    assert (G : gor_peak_scale W p x k = Ok (Some (q, snd p))).
    { unfold gor_peak_scale. rewrite E. destruct q. reflexivity. }
    rewrite G. cbn [bind]. rewrite E2. cbn [bind total]. split; [reflexivity|]. split; [|constructor; auto].
    rewrite V, T2. ring. }
  destruct F as (ps' & E & T & F2). rewrite E. cbn [bind].
  assert (AT : all_true (map (fun _ => true) ps) = true) by (clear; induction ps; auto).
  rewrite AT. cbn [negb]. rewrite all_any; [|destruct ps; cbn; [cbn in H; lra|discriminate]|exact AT].
  exists ps'. split; [reflexivity|]. split; [|exact F2]. rewrite T. unfold k. field. exact H.
Qed.
Print Assumptions C43_gaussianoverr.

(** One free peak with its maximum at 1, doubled at x = 2. *)
Example C43_gaussianoverr_nonvacuous : exists W x y (ps : list gpeak), 0 < W /\ x <> 0 /\ length ps = 1%nat /\
  (forall p, In p ps -> degenerate (fst p) = false) /\ total (gor_at W) ps x <> 0 /\ y / total (gor_at W) ps x <> 1 /\
  (forall p, In p ps -> exists q, peak_scale_at (gor_scale_at W) (fst p) (snd p) x (y / total (gor_at W) ps x) = Ok (true, inject q)).
Proof.
  pose proof s2f_pos as S0.
  destruct C27_nonvacuous as (W & p & p' & HW & D & E).
  destruct (C27_gaussianoverr_scale_at W p 2 2 p' HW ltac:(lra) ltac:(lra) D E) as (m & h & M & V & S2 & _).
  destruct (S2 ltac:(lra)) as (v & V1 & V2).
  destruct (Req_dec v 0) as [Z|NZ].
  - (* a zero area peak would give v = 0: take another one *)
    destruct witness_peak as (q & E1 & E2 & E3 & D2 & M2).
    exists (4 * sigma2fwhm), 2, (2 * gor_at (4 * sigma2fwhm) (q, (true, true, true)) 2), [(q, (true, true, true))].
    assert (G : 0 < gor_at (4 * sigma2fwhm) (q, (true, true, true)) 2).
    { unfold gor_at. cbn [fst]. rewrite gor_curve by (auto; lra). rewrite E1, E2, E3. unfold normal_curve.
      rewrite Rabs_pos_eq by lra. rewrite (Rabs_pos_eq 2) by lra. unfold Rdiv.
      apply Rmult_lt_0_compat; [|lra]. apply Rmult_lt_0_compat; [|apply exp_pos]. apply Rmult_lt_0_compat; [lra|].
      apply Rinv_0_lt_compat. apply Rmult_lt_0_compat; [lra|]. apply sqrt_lt_R0. pose proof PI_RGT_0. lra. }
    assert (TT : total (gor_at (4 * sigma2fwhm)) [(q, (true, true, true))] 2 = gor_at (4 * sigma2fwhm) (q, (true, true, true)) 2) by (cbn [total]; lra).
    rewrite TT. set (g := gor_at _ _ _) in *. replace (2 * g / g) with 2 by (field; lra).
    split; [lra|]. split; [lra|]. split; [reflexivity|]. split; [intros ? [<-|[]]; exact D2|]. split; [lra|]. split; [lra|].
    intros ? [<-|[]]. cbn [fst snd]. unfold peak_scale_at. cbn [negb andb].
    destruct (C27_outcomes (4 * sigma2fwhm) q 2 2 _ _ ltac:(lra) ltac:(lra) ltac:(lra) D2 M2) as (Q & _).
    assert (L : ln 2 < 1). { rewrite <- (ln_exp 1). apply ln_increasing; [lra|]. pose proof (exp_ineq1 1). lra. }
    pose proof ln2_pos. rewrite E2 in Q. destruct Q as [q' Q].
    + lra.
    + lra.
    + assert (ZZ : sqrt ((2 - 1) ^ 2 / ((2 - 1) ^ 2 / (1 / 2) ^ 2 - 2 * ln 2)) <= 1).
      { apply Rle_trans with (sqrt 1); [|rewrite sqrt_1; lra]. apply sqrt_le_1_alt.
        replace ((2 - 1) ^ 2 / ((2 - 1) ^ 2 / (1 / 2) ^ 2 - 2 * ln 2)) with (/ (4 - 2 * ln 2)) by (field; lra).
        apply Rle_trans with (/ 1); [apply Rinv_le_contravar; lra|rewrite Rinv_1; lra]. }
      set (z := sqrt _) in *. apply Rle_trans with (1 * sigma2fwhm); [apply Rmult_le_compat_r; lra|lra].
    + rewrite Q. rewrite !andb_false_r. cbn [orb]. eauto.
  - exists W, 2, (2 * v), [(p, (true, true, true))].
    assert (TT : total (gor_at W) [(p, (true, true, true))] 2 = v) by (cbn [total]; unfold gor_at; cbn [fst]; rewrite V1; lra).
    rewrite TT. replace (2 * v / v) with 2 by (field; exact NZ).
    split; [lra|]. split; [lra|]. split; [reflexivity|]. split; [intros ? [<-|[]]; exact D|]. split; [exact NZ|]. split; [lra|].
    intros ? [<-|[]]. cbn [fst snd]. unfold peak_scale_at. cbn [negb andb]. rewrite E. rewrite !andb_false_r. cbn [orb]. eauto.
Qed.

(** C222: with AIC or AICc as the error method, what the cluster operations do to the
    criterion: accepted fits never raise it, pruning strictly lowers it or changes nothing,
    augmenting never raises it. *)
From Coq Require Import Reals Lra Permutation.
From Verif Require Import Prelude Evaluators EvaluatorsProps ModelCluster ModelClusterProofs ModelClusterProps Prune PruneProofs PruneProps AugmentProps CritLink.
Open Scope Z_scope.

Section Link.
Context {P B : Type}.
Variable w : world P B R.
Notation cluster := (cluster P B).
Variable aicc : bool.
Notation meth := (if aicc then AICc else AIC).
Variable qk : cluster -> nat -> R.
Hypothesis CW : crit_world w meth qk.
(** Exact arithmetic. *)
Hypothesis ID : forall x, w_rnd w x = x.

(** ** Specification *)
(** The points of a cluster: (baseline plus peaks, observed value, uncertainty). *)
Definition fitted_points (c : cluster) : list (Z * Z * Z) :=
  combine (combine (map (fun p => fst p + snd p) (combine (valuebl w (c_base c) (r_cluster c)) (vsum w (r_cluster c) (c_model c)))) (y_cluster c)) (e_cluster c).
(** Sum of the squares of (model - observed) / uncertainty, plus twice the number k of
    free peak parameters, plus for AICc the correction 2k(k+1)/(n-k-1), where n is the
    number of points but at least k+2. *)
Definition score (c : cluster) : R :=
  let k := IZR (Z.of_nat (model_npars w false (c_model c))) in
  let n := IZR (Z.max (Z.of_nat (length (fitted_points c))) (Z.of_nat (model_npars w false (c_model c)) + 2)) in
  (fold_right Rplus 0 (map (fun t => (IZR (fst (fst t)) - IZR (snd (fst t))) ^ 2 / (IZR (snd t)) ^ 2) (fitted_points c))
   + 2 * k + if aicc then 2 * k * (k + 1) / (n - k - 1) else 0)%R.

(** ** Proofs *)
Lemma valuebl_zeros c : (match c_base c with Some b => length (w_blvalue w b (r_cluster c)) <= length (r_cluster c) | None => True end)%nat ->
  cluster_value w c = map (fun p => fst p + snd p) (combine (valuebl w (c_base c) (r_cluster c)) (vsum w (r_cluster c) (c_model c))).
Proof.
  intros LB. unfold cluster_value. destruct (c_model c) as [|p m] eqn:M.
  - unfold vsum. cbn [fold_left]. set (r := r_cluster c) in *.
    assert (L : (length (valuebl w (c_base c) r) <= length r)%nat) by (unfold valuebl; destruct (c_base c); [exact LB|now rewrite map_length]).
    generalize dependent (valuebl w (c_base c) r). clear. induction r as [|x r IH]; intros [|a l] L; cbn in *; try reflexivity; [lia|]. f_equal; [lia|]. apply IH. lia.
  - unfold vadd. apply map_ext. intros [a b]. apply ID.
Qed.

Hypothesis BL : forall b r, length (w_blvalue w b r) = length r.

Lemma cv c : cluster_value w c = map (fun p => fst p + snd p) (combine (valuebl w (c_base c) (r_cluster c)) (vsum w (r_cluster c) (c_model c))).
Proof. apply valuebl_zeros. destruct (c_base c); [rewrite BL; lia|trivial]. Qed.

Lemma points_fitted c : points (crit_data w c) = map (fun t => (IZR (fst (fst t)), IZR (snd (fst t)), IZR (snd t))) (fitted_points c).
Proof. unfold crit_data. cbn [points]. now rewrite cv. Qed.

Definition pen (k n : Z) : R := if aicc then penalty_AICc k n else parpenalty AIC k n.
Lemma pen_le k k' n : 0 <= k <= k' -> (pen k n <= pen k' n)%R.
Proof.
  intros [H1 H2]. assert (G : forall d, 0 <= d -> (pen k n <= pen (k + d) n)%R).
  { intros d Hd. pattern d. apply natlike_ind; [rewrite Z.add_0_r; lra| |exact Hd].
    intros x Hx IH. eapply Rle_trans; [exact IH|]. replace (k + Z.succ x) with (k + x + 1) by lia. unfold pen.
    destruct (C34_penalty_monotone (k + x) n ltac:(lia)) as (_ & A & _ & _ & A2 & _). destruct aicc; lra. }
  replace k' with (k + (k' - k)) by lia. apply G. lia.
Qed.

Lemma stat_form c k : crit_stat w meth c k =
  (chi_squared (points (crit_data w c)) + pen (Z.of_nat (model_npars w false (c_model c)) + Z.of_nat k) (Z.of_nat (length (points (crit_data w c)))))%R.
Proof.
  unfold crit_stat. destruct (C34_criterion_values (crit_data w c) false (Z.of_nat k)) as (_ & G).
  change (npars_free (crit_data w c)) with (model_npars w false (c_model c)) in G. specialize (G ltac:(lia)).
  destruct G as (G1 & _ & G2 & _). unfold pen. destruct aicc; unfold new_AIC, new_AICc in *; rewrite ?G1, ?G2; f_equal.
  - now rewrite pen_form.
  - unfold parpenalty. now rewrite mult_IZR.
Qed.

Theorem C222_quality : forall c, w_quality w c = score c.
Proof.
  intros c. destruct CW as (_ & Q0 & _). rewrite Q0, stat_form, Z.add_0_r, points_fitted. unfold score, pen, chi_squared.
  rewrite map_map, map_length. cbn [fst snd]. rewrite Rplus_assoc. f_equal.
  destruct aicc; [now rewrite pen_form|]. unfold parpenalty. rewrite mult_IZR. lra.
Qed.

Lemma qlt_r a b : w_qlt w a b = true <-> (b < a)%R.
Proof.
  destruct CW as (_ & _ & QL & _). specialize (QL a b). unfold ev_lt, compare_with in QL. cbn [emethod stat higher_is_better] in QL.
  replace (method_eqb meth meth) with true in QL by (destruct aicc; reflexivity). cbn [negb] in QL. injection QL as ->.
  unfold Rltb. destruct (Rlt_dec b a); split; try discriminate; auto; contradiction.
Qed.
Lemma qlt_f a b : w_qlt w a b = false <-> (a <= b)%R.
Proof.
  destruct (w_qlt w a b) eqn:E; split; try discriminate; intros H.
  - apply qlt_r in E. lra.
  - destruct (Rle_lt_dec a b) as [L|L]; [exact L|]. apply qlt_r in L. congruence.
  - reflexivity.
Qed.
Lemma q_asym : forall a b, w_qlt w a b = true -> w_qlt w b a = false.
Proof. intros a b H. apply qlt_r in H. apply qlt_f. lra. Qed.
Lemma q_trans : forall a b c, w_qlt w a b = true -> w_qlt w c b = false -> w_qlt w a c = true.
Proof. intros a b c H1 H2. apply qlt_r in H1. apply qlt_f in H2. apply qlt_r. lra. Qed.

(** Accepted fits never raise the criterion. *)
Theorem C222_fit :
  argsort_ok (w_argsort w) ->
  forall c justify ntrials fitbaseline estimate q,
    let r := fit w c justify ntrials fitbaseline estimate in
    fr_out r = Ok (Some q) ->
    q = score (fr_c r) /\
    exists c1, (c1 = c \/ (c_model c = [] /\ exists p, w_estimate w c = Ok (Some p) /\ c1 = set_model c [p])) /\ (score (fr_c r) <= score c1)%R.
Proof.
  intros AS c j n fb est q r E. destruct (C37_fit_never_worse w AS c j n fb est) as (_ & c1 & H1 & H2). fold r in H2. rewrite E in H2.
  destruct H2 as (-> & H2 & _). rewrite <- !C222_quality. split; [reflexivity|]. exists c1. split; [exact H1|].
  rewrite <- C222_quality. apply qlt_f in H2. exact H2.
Qed.

Lemma fit_growth c nt fb est q : c_model c <> [] -> fr_out (fit w c true nt fb est) = Ok (Some q) -> length (c_model (fr_c (fit w c true nt fb est))) = 1%nat ->
  exists np, min_npars w (c_pf c) = Ok np /\ w_growth w q (fr_c (fit w c true nt fb est)) np = false.
Proof.
  intros NE. unfold fit. destruct (c_never c); [discriminate|]. destruct (c_model c) as [|p0 m0] eqn:M; [contradiction|]. cbv zeta.
  destruct (w_engine w _ _ _ _) as [[ps ob] out]. destruct out as [[]|e]; [|destruct e; discriminate].
  destruct (cleanfit _ _ _ _) as [[ps2 n]|]; [|discriminate]. destruct (w_qlt w _ _); [discriminate|].
  destruct (Nat.eqb_spec (length ps2) 1) as [L1|L1]; cbn [andb].
  - rewrite M. cbn [length Nat.ltb Nat.leb]. destruct (min_npars w (c_pf c)) as [np|]; [|discriminate].
    destruct (w_growth w _ _ np) eqn:G; [discriminate|]. cbn [fr_out fr_c]. intros [= <-] _. exists np. split; [reflexivity|exact G].
  - cbn [fr_out fr_c]. intros _ H. contradiction.
Qed.

(** With justify, a single peak is kept only if np more parameters, np being the smallest
    number of parameters of a peak function, could not lower the criterion even with a
    perfect fit, or there are too few points for them. *)
Theorem C222_single_peak :
  forall c ntrials fitbaseline estimate q,
    let r := fit w c true ntrials fitbaseline estimate in
    c_model c <> [] -> fr_out r = Ok (Some q) -> length (c_model (fr_c r)) = 1%nat ->
    exists np, min_npars w (c_pf c) = Ok np /\
      let k := Z.of_nat (model_npars w false (c_model (fr_c r))) + Z.of_nat np in
      let n := Z.of_nat (length (fitted_points (fr_c r))) in
      (if aicc then k + 2 <= n else 1 <= n) ->
      (score (fr_c r) <= 2 * IZR k + if aicc then 2 * IZR k * (IZR k + 1) / (IZR n - IZR k - 1) else 0)%R.
Proof.
  intros c nt fb est q r NE E L1. destruct (fit_growth c nt fb est q NE E L1) as (np & MN & G). fold r in G. exists np. split; [exact MN|].
  intros k n HN. rewrite <- C222_quality. destruct CW as (_ & Q0 & _ & GR). rewrite GR in G. rewrite Q0, stat_form, Z.add_0_r.
  assert (G' : snd (growth_justified (new_evaluator meth false) (crit_data w (fr_c r)) (Z.of_nat np)) = false) by (rewrite <- G; unfold growth_justified; cbn [emethod chisq new_evaluator]; match goal with |- context[if ?b then _ else _] => destruct b end; reflexivity). clear G.
  destruct (Rle_lt_dec (chi_squared (points (crit_data w (fr_c r))) + pen (Z.of_nat (model_npars w false (c_model (fr_c r)))) (Z.of_nat (length (points (crit_data w (fr_c r))))))
    (2 * IZR k + (if aicc then 2 * IZR k * (IZR k + 1) / (IZR n - IZR k - 1) else 0))) as [H|H]; [exact H|exfalso].
  assert (LP : Z.of_nat (length (points (crit_data w (fr_c r)))) = n) by (unfold n; now rewrite points_fitted, map_length).
  rewrite LP in H.
  assert (T : snd (growth_justified (new_evaluator meth false) (crit_data w (fr_c r)) (Z.of_nat np)) = true); [|congruence].
  apply C35_growth_justified_exact; [destruct aicc; auto|lia|]. rewrite LP. change (npars_free (crit_data w (fr_c r))) with (model_npars w false (c_model (fr_c r))). fold k.
  unfold pen in H. destruct aicc; (split; [lia|]).
  - rewrite pen_form in H. rewrite Z.max_l in H by lia. rewrite Rplus_0_l. exact H.
  - unfold parpenalty in H. rewrite mult_IZR in H. lra.
Qed.

(** The criterion of residuals, uncertainties and number of parameters. *)
Definition F (res e : list Z) (k : nat) : R :=
  (chi_squared (map (fun t => (0, IZR (fst t), IZR (snd t))) (combine res e)) + pen (Z.of_nat k) (Z.of_nat (length (combine res e))))%R.

Lemma residual_points c : chi_squared (points (crit_data w c)) = chi_squared (map (fun t => (0%R, IZR (fst t), IZR (snd t))) (combine (residual w c) (e_cluster c))) /\
  length (points (crit_data w c)) = length (combine (residual w c) (e_cluster c)).
Proof.
  unfold residual. rewrite points_fitted, map_length. unfold fitted_points, chi_squared, vsub. rewrite !map_map.
  generalize (e_cluster c) as e, (y_cluster c) as y, (valuebl w (c_base c) (r_cluster c)) as b, (vsum w (r_cluster c) (c_model c)) as v.
  induction e as [|e0 e IH]; intros [|y0 y] [|b0 b] [|v0 v]; cbn [combine map fold_right fst snd length]; try (split; reflexivity).
  destruct (IH y b v) as (A & A2). rewrite A, !ID. split; [|now rewrite A2]. f_equal. f_equal. rewrite plus_IZR, !minus_IZR. ring.
Qed.

(** Pruning changes nothing or strictly lowers the criterion, if no fit is undone. *)
Theorem C222_prune :
  forall (qargmax : list R -> nat) {L} (lab : P -> L),
  argsort_ok (w_argsort w) -> engine_shape w lab -> argmax_ok (w_qlt w) qargmax ->
  (forall p, (w_p_npars w false p <= w_p_npars w true p)%nat) ->
  forall (c : cluster) fuel m out, length (adat (c_y c)) = length (adat (c_r c)) -> length (adat (c_e c)) = length (adat (c_r c)) ->
    (forall c' nt, r_cluster c' = r_cluster c -> e_cluster c' = e_cluster c ->
       fr_list (fit w c' false nt false false) = c_model (fr_c (fit w c' false nt false false))) ->
    prune w qk qargmax fuel c = Some (m, out) ->
    m = c_model c \/ (score (set_model c m) < score c)%R.
Proof.
  intros qargmax L lab AS ES AM FP c fuel m out Ly Le NR E.
  destruct (C110_prune_never_worse w qk qargmax lab F AS ES AM) with (c := c) (fuel := fuel) (m := m) (out := out) as [H|H]; auto using q_asym.
  - intros c0 k. destruct CW as (QK & _). rewrite QK, stat_form. destruct (residual_points c0) as (-> & ->). unfold F. now rewrite Nat2Z.inj_add.
  - intros c0. destruct CW as (QK & Q0 & _). now rewrite Q0, QK.
  - intros r e k k' H. apply qlt_f. unfold F. pose proof (pen_le (Z.of_nat k) (Z.of_nat k') (Z.of_nat (length (combine r e))) ltac:(lia)). lra.
  - exact q_trans.
  - right. apply qlt_r in H. now rewrite !C222_quality in H.
Qed.

(** Sums do not depend on the order of the peaks. *)
Lemma vadd_comm_swap a : forall u v, vadd w (vadd w a u) v = vadd w (vadd w a v) u.
Proof.
  unfold vadd. induction a as [|x a IH]; intros [|y u] [|z v]; cbn [combine map fst snd]; try reflexivity.
  rewrite !ID, IH. f_equal. lia.
Qed.
Lemma vsum_perm r a b : Permutation a b -> vsum w r a = vsum w r b.
Proof.
  intros H. unfold vsum. generalize (map (fun _ : Z => 0) r) as acc. induction H; intros acc; cbn [fold_left]; auto.
  - now rewrite vadd_comm_swap.
  - now rewrite IHPermutation1.
Qed.
Lemma npars_perm cf a b : Permutation a b -> model_npars w cf a = model_npars w cf b.
Proof. intros H. unfold model_npars, list_sum_nat. induction H; cbn [map fold_right]; lia. Qed.

Lemma score_same c1 c2 : same_frame c1 c2 -> c_base c1 = c_base c2 -> Permutation (c_model c1) (c_model c2) -> score c1 = score c2.
Proof.
  intros (F1 & F2 & F3 & F4 & F5 & _) HB PM. unfold score, fitted_points, r_cluster, y_cluster, e_cluster. rewrite F1, F2, F3, F4, F5, HB.
  now rewrite (vsum_perm _ _ _ PM), (npars_perm _ _ _ PM).
Qed.

(** Augmenting never raises the criterion, if no fit is undone or drops every peak. *)
Theorem C222_augment :
  forall (qargmax : list R -> nat),
  argsort_ok (w_argsort w) -> argmax_ok (w_qlt w) qargmax ->
  forall (c source : cluster) fuel c',
    (forall c0, same_frame c c0 -> c_model c0 <> [] ->
       fr_list (fit w c0 false 0 false false) = c_model (fr_c (fit w c0 false 0 false false)) /\
       c_model (fr_c (fit w c0 false 0 false false)) <> []) ->
    c_model c <> [] ->
    augment w qargmax fuel c source = Some (c', Ok tt) ->
    (score c' <= score c)%R.
Proof.
  intros qargmax AS AM c source fuel c' NR NE E.
  pose proof (C111_augment_never_worse w qargmax AS AM) as G.
  rewrite <- !C222_quality. apply qlt_f. apply (G) with (source := source) (fuel := fuel); auto using q_asym.
  - intros c1 c2 H1 H2 H3. rewrite !C222_quality. now apply score_same.
  - exact q_trans.
Qed.
End Link.

Print Assumptions C222_quality.
Print Assumptions C222_fit.
Print Assumptions C222_single_peak.
Print Assumptions C222_prune.
Print Assumptions C222_augment.

(** ** The hypotheses are satisfiable and the conclusions are not trivial *)
(** Peaks (position, height, removable) with three parameters; every attempt to fit fails. *)
Definition lk_value (p : Z * Z * bool) (r : list Z) : list Z := map (fun x => if x =? fst (fst p) then snd (fst p) else 0) r.
Definition no_fit (m : list (Z * Z * bool)) (b : option Z) (c : cluster (Z * Z * bool) Z) (n : nat) : (list (Z * Z * bool) * option Z) * result unit := ((m, b), Err FitError).
Definition lk_world (q : cluster (Z * Z * bool) Z -> R) (lt : R -> R -> bool) (g : R -> cluster (Z * Z * bool) Z -> nat -> bool) : world (Z * Z * bool) Z R :=
  mkWorld (fun x => x) (fun p => Some (fst (fst p))) snd (fun _ => false)
    lk_value (fun cf p => 3%nat) (fun cf b => 1%nat) (fun b r => map (fun _ => b) r) Z.eqb isort (fun _ => 3%nat)
    q lt g (fun c => Ok None) no_fit (fun a b => (a + b) / 2) (fun _ _ m => m).
Definition lk0 := lk_world (fun _ => 0%R) (fun _ _ => false) (fun _ _ _ => false).
Definition lk_lt (a b : R) : bool := match ev_lt (mkEv AIC false (Some a) None) (mkEv AIC false (Some b) None) with Ok t => t | Err _ => false end.
Definition lkw : world (Z * Z * bool) Z R :=
  lk_world (fun c => crit_stat lk0 AIC c 0) lk_lt (fun q c n => snd (growth_justified (mkEv AIC false (Some q) None) (crit_data lk0 c) (Z.of_nat n))).
Lemma lkw_crit : crit_world lkw AIC (crit_stat lk0 AIC).
Proof. split; [reflexivity|]. split; [reflexivity|]. split; [reflexivity|reflexivity]. Qed.

(** The index of a smallest statistic. *)
Fixpoint rbest (i : nat) (q : R) (l : list R) (k : nat) : nat :=
  match l with [] => i | a :: r => if Rlt_dec a q then rbest k a r (S k) else rbest i q r (S k) end.
Definition rargmax (l : list R) : nat := match l with [] => 0%nat | a :: r => rbest 0 a r 1 end.
Lemma rbest_ok (all : list R) : forall l k i q, nth_error all i = Some q -> (forall j, nth_error l j = nth_error all (k + j)) -> (forall j x, (j < k)%nat -> nth_error all j = Some x -> (q <= x)%R) ->
  exists q', nth_error all (rbest i q l k) = Some q' /\ forall x, In x all -> (q' <= x)%R.
Proof.
  induction l as [|a l IH]; intros k i q HI HL HB; cbn [rbest].
  - exists q. split; [exact HI|]. intros x Hx. apply In_nth_error in Hx as (j & Hj). destruct (Nat.lt_ge_cases j k) as [L|L]; [eauto|].
    specialize (HL (j - k)%nat). replace (k + (j - k))%nat with j in HL by lia. rewrite Hj in HL. destruct (j - k)%nat; discriminate.
  - assert (EA : nth_error all k = Some a) by (specialize (HL 0%nat); rewrite Nat.add_0_r in HL; now symmetry).
    assert (HL' : forall j, nth_error l j = nth_error all (S k + j)) by (intros j; specialize (HL (S j)); cbn in HL; now replace (S k + j)%nat with (k + S j)%nat by lia).
    destruct (Rlt_dec a q) as [LT|GE]; apply IH; auto; intros j x Hj Hx.
    + destruct (Nat.eq_dec j k) as [->|N]; [rewrite EA in Hx; injection Hx as <-; lra|]. specialize (HB j x ltac:(lia) Hx). lra.
    + destruct (Nat.eq_dec j k) as [->|N]; [rewrite EA in Hx; injection Hx as <-; lra|]. exact (HB j x ltac:(lia) Hx).
Qed.
Lemma rargmax_ok : argmax_ok (w_qlt lkw) rargmax.
Proof.
  intros l H. destruct l as [|a r]; [contradiction|]. destruct (rbest_ok (a :: r) r 1 0 a) as (q & E & A); [reflexivity|reflexivity| |].
  - intros [|j] x Hj Hx; [injection Hx as <-; lra|lia].
  - exists q. split; [exact E|]. intros q' Hq. apply (qlt_f lkw false (crit_stat lk0 AIC) lkw_crit). now apply A.
Qed.

(** A cluster with a peak that explains nothing: it is pruned, and AIC falls from 31 to 25. *)
Definition lkc : cluster (Z * Z * bool) Z := mkC [(1, 0, true)] None (mkArr 0 [0; 1]) (mkArr 1 [3; 4]) (mkArr 2 [1; 1]) 0 2 false 0 0 [0%nat].
Lemma lkc_scores : score lkw false lkc = 31%R /\ score lkw false (set_model lkc []) = 25%R.
Proof. unfold score. cbn. split; field_simplify; lra. Qed.
Example C222_nonvacuous :
  crit_world lkw AIC (crit_stat lk0 AIC) /\ (forall x, w_rnd lkw x = x) /\ (forall b r, length (w_blvalue lkw b r) = length r) /\
  argsort_ok (w_argsort lkw) /\ engine_shape lkw (fun p => p) /\ argmax_ok (w_qlt lkw) rargmax /\
  (forall p, (w_p_npars lkw false p <= w_p_npars lkw true p)%nat) /\
  (forall c' nt, fr_list (fit lkw c' false nt false false) = c_model (fr_c (fit lkw c' false nt false false))) /\
  score lkw false lkc = 31%R /\ score lkw false (set_model lkc []) = 25%R /\
  (exists out, prune lkw (crit_stat lk0 AIC) rargmax 5 lkc = Some ([], out)).
Proof.
  split; [exact lkw_crit|]. split; [reflexivity|]. split; [intros; apply map_length|]. split; [exact isort_ok|].
  split; [intros m b c n ps b' out E; injection E as <- <- <-; induction m; constructor; auto|]. split; [exact rargmax_ok|].
  split; [intros p; cbn; lia|]. split; [|split; [apply lkc_scores|split; [apply lkc_scores|]]].
  - intros c nt. unfold fit. destruct (c_never c); [reflexivity|]. destruct (c_model c) eqn:M; [reflexivity|]. reflexivity.
  - destruct lkc_scores as (S1 & S2).
    rewrite <- (C222_quality lkw false (crit_stat lk0 AIC) lkw_crit (fun _ => eq_refl) (fun b r => map_length _ r)) in S1, S2.
    unfold prune. cbn [c_model lkc]. match goal with |- context[make_cluster ?a ?b ?c ?d ?e ?f ?g ?h ?i] => destruct (make_cluster a b c d e f g h i) as [mc|er] eqn:MK end; [|discriminate].
    assert (HM : mc = mkC [] None (mkArr 0 [0; 1]) (mkArr 0 [3; 4]) (mkArr 0 [1; 1]) 0 2 (c_never mc) (c_last mc) 0 [0%nat]).
    { clear S1 S2. unfold make_cluster, change_slice_from in MK. destruct (all_below _ _ _ _ _); [|discriminate]. injection MK as <-. reflexivity. }
    fold lkc. cbn [prune_loop map existsb w_removable lkw lk_world snd negb length seq].
    cbn [check_peaks nth_error w_removable lkw lk_world snd]. fold lkw.
    match goal with |- context[fit lkw ?m false _ false false] => set (mc1 := m) end.
    assert (F1 : forall n, fit lkw mc1 false n false false = mkFitRes mc1 [] None [] (Ok None)).
    { intros n. unfold mc1. unfold fit. rewrite HM. cbn. destruct (c_never mc); reflexivity. }
    rewrite F1. cbn [fr_out fr_c fr_list bind].
    assert (QV : crit_stat lk0 AIC mc1 (addpars lkw [(1, 0, true)] 0) = 25%R).
    { rewrite <- S2. unfold mc1. rewrite HM. reflexivity. }
    rewrite QV, S1. assert (L1 : w_qlt lkw 25%R 31%R = false) by (apply (qlt_f lkw false _ lkw_crit); lra).
    assert (L2 : w_qlt lkw 31%R 25%R = true) by (apply (qlt_r lkw false _ lkw_crit); lra).
    rewrite L1. cbn [map snd rargmax rbest nth_error]. rewrite L2.
    cbn [window_lo window_hi Nat.sub Nat.add Nat.min firstn skipn app].
    match goal with |- context[fit lkw ?m false _ false false] => set (mc2 := m) end.
    assert (F2 : fit lkw mc2 false 0 false false = mkFitRes mc2 [] None [] (Ok None)).
    { unfold mc2, mc1. unfold fit. rewrite HM. cbn. destruct (c_never mc); reflexivity. }
    rewrite F2. cbn [fr_out fr_c]. exists (Ok tt). reflexivity.
Qed.

(** C241: fits judged by a criterion computed in double precision. *)
From Coq Require Import Reals Lra.
From Flocq Require Import Core.
From Verif Require Import Prelude Evaluators ModelCluster ModelClusterProofs ModelClusterProps FloatWidth FloatWidthProps FloatEval FloatEvalProps CritLink CritLinkProps FloatOrderProps FloatCrit.
Open Scope Z_scope.

Section Link.
Context {P B : Type}.
Variable w : world P B R.
Notation cluster := (cluster P B).
Variable e0 : Z.
Variable aicc : bool.
Hypothesis FW : float_world w e0 (if aicc then AICc else AIC).
(** The exact criterion of a cluster (FloatOrderProps.criterion), whatever the unit. *)
Definition exact (c : cluster) : R := criterion aicc (free_pars w c) (float_points w e0 c).
(** No quantity that chi-square is computed from is subnormal, and the numbers of parameters
    and points are far below 2^52. *)
Definition well_scaled (c : cluster) : Prop :=
  (forall p, In p (float_points w e0 c) -> regular p) /\ free_pars w c <= 2 ^ 50 /\ Z.of_nat (length (float_points w e0 c)) <= 2 ^ 49.

Lemma fqlt a b : w_qlt w a b = false <-> (a <= b)%R.
Proof.
  destruct FW as (_ & -> & _). unfold Rltb. destruct (Rlt_dec b a) as [L|L]; split; intros H; try discriminate; try reflexivity; lra.
Qed.

(** A fit that reports a quality leaves the cluster with a computed criterion that is not
    above that of the cluster it started from, and hence an exact criterion that is above it by
    at most a factor of 1 + (n + n' + 10) * 2^-51, n and n' the numbers of points. *)
Theorem C241_fit_in_double_precision :
  argsort_ok (w_argsort w) ->
  forall c justify ntrials fitbaseline estimate q,
    let r := fit w c justify ntrials fitbaseline estimate in
    fr_out r = Ok (Some q) ->
    exists c1, (c1 = c \/ (c_model c = [] /\ exists p, w_estimate w c = Ok (Some p) /\ c1 = set_model c [p])) /\
      (q = w_quality w (fr_c r) /\ q <= w_quality w c1)%R /\
      (well_scaled c1 -> well_scaled (fr_c r) ->
         (exact (fr_c r) <= exact c1 * (1 + IZR (Z.of_nat (length (float_points w e0 (fr_c r))) + Z.of_nat (length (float_points w e0 c1)) + 10) * bpow radix2 (-51)))%R).
Proof.
  intros AS c j n fb est q r E. destruct (C37_fit_never_worse w AS c j n fb est) as (_ & c1 & H1 & H2). fold r in H2. rewrite E in H2.
  destruct H2 as (-> & H2 & _). apply fqlt in H2. exists c1. split; [exact H1|]. split; [split; [reflexivity|exact H2]|].
  intros (W1 & W2 & W3) (V1 & V2 & V3). destruct FW as (Q & _).
  destruct (Q (fr_c r)) as (x & X & EX). destruct (Q c1) as (y & Y & EY). rewrite EX, EY in H2.
  apply (proj1 (proj2 (C240_order_of_models_in_double_precision aicc (free_pars w (fr_c r)) (free_pars w c1) (float_points w e0 (fr_c r)) (float_points w e0 c1) x y
    ltac:(unfold free_pars in *; lia) ltac:(unfold free_pars in *; lia) V3 W3
    ltac:(intros p Hp; apply in_app_or in Hp; destruct Hp; auto) X Y))). exact H2.
Qed.

(** With justify, a single peak is kept only if its exact criterion is at most that of a perfect
    fit with np more parameters, np the smallest number of parameters of a peak
    function, times 1 + (n + 9) * 2^-51, or there are too few points for so many. *)
Theorem C241_single_peak_in_double_precision :
  forall c ntrials fitbaseline estimate q,
    let r := fit w c true ntrials fitbaseline estimate in
    c_model c <> [] -> fr_out r = Ok (Some q) -> length (c_model (fr_c r)) = 1%nat -> well_scaled (fr_c r) ->
    exists np, min_npars w (c_pf c) = Ok np /\
      let k := free_pars w (fr_c r) + Z.of_nat np in
      let n := Z.of_nat (length (float_points w e0 (fr_c r))) in
      1 <= k <= 2 ^ 50 -> (if aicc then k + 2 <= n else 1 <= n) ->
      (exact (fr_c r) <= (2 * IZR k + if aicc then 2 * IZR k * (IZR k + 1) / (IZR n - IZR k - 1) else 0) * (1 + IZR (n + 9) * bpow radix2 (-51)))%R.
Proof.
  intros c nt fb est q r NE E L1 (W1 & W2 & W3). destruct (fit_growth w c nt fb est q NE E L1) as (np & MN & G). fold r in G. exists np. split; [exact MN|].
  intros k n K HN. destruct FW as (_ & _ & GR). destruct (GR q (fr_c r) np) as (x & X & EX). rewrite EX in G.
  apply (proj1 (C240_growth_in_double_precision aicc (free_pars w (fr_c r)) (Z.of_nat np) (float_points w e0 (fr_c r)) x
    ltac:(unfold free_pars; lia) ltac:(lia) K W3 HN W1 X)). exact G.
Qed.

(** In a common unit: the exact criterion is that of the integers (CritLinkProps.score) when
    the sums of peaks and baseline are exact. *)
Lemma sum_scaled (l : list (Z * Z * Z)) :
  (forall t, In t l -> snd t <> 0) ->
  fold_right Rplus 0%R (map (fun p => (fst (fst p) - snd (fst p)) ^ 2 / snd p ^ 2)%R (map (fun t => (IZR (fst (fst t)) * bpow radix2 e0, IZR (snd (fst t)) * bpow radix2 e0, IZR (snd t) * bpow radix2 e0)%R) l)) =
  fold_right Rplus 0%R (map (fun t => (IZR (fst (fst t)) - IZR (snd (fst t))) ^ 2 / (IZR (snd t)) ^ 2)%R l).
Proof.
  induction l as [|[[a b] s] l IH]; intros H; [reflexivity|]. cbn [map fold_right fst snd]. rewrite IH by (intros t Ht; apply H; now right). f_equal.
  pose proof (H (a, b, s) (or_introl eq_refl)) as N. cbn in N. apply not_0_IZR in N. pose proof (bpow_gt_0 radix2 e0). field. split; [exact N|lra].
Qed.
Theorem C241_unit :
  (forall x, w_rnd w x = x) -> (forall b r, length (w_blvalue w b r) = length r) ->
  forall c, (forall s, In s (e_cluster c) -> s <> 0) -> exact c = score w aicc c.
Proof.
  intros ID BL c NZ. unfold exact, criterion, score, free_pars, float_points. rewrite map_length.
  rewrite (cv w ID BL). fold (fitted_points w c). rewrite sum_scaled.
  - set (k := Z.of_nat _). set (n := Z.max _ _). destruct aicc; ring.
  - intros [[a b] s] Ht. cbn [snd]. apply NZ. unfold fitted_points in Ht. now apply in_combine_r in Ht.
Qed.
End Link.
Print Assumptions C241_fit_in_double_precision.
Print Assumptions C241_single_peak_in_double_precision.
Print Assumptions C241_unit.

(** ** A concrete case *)
Definition fsum (l : list R) : R := fold_right (fun x s => rnd (x + s)) 0%R l.
Lemma fsum_ok l : summed l (fsum l).
Proof. induction l as [|x l IH]; [constructor|]. exact (sum_cat [x] l x (fsum l) (sum_one x) IH). Qed.
(** A world whose fits set the heights of peaks to 4 (CritLinkProps.lk_world). *)
Definition fk_world (q : cluster (Z * Z * bool) Z -> R) (g : R -> cluster (Z * Z * bool) Z -> nat -> bool) : world (Z * Z * bool) Z R :=
  mkWorld (fun x => x) (fun p => Some (fst (fst p))) snd (fun _ => false)
    lk_value (fun cf p => 3%nat) (fun cf b => 1%nat) (fun b r => map (fun _ => b) r) Z.eqb isort (fun _ => 3%nat)
    q (fun a b => Rltb b a) g (fun c => Ok None)
    (fun m b c n => ((map (fun p => (fst (fst p), 4, snd p)) m, b), Ok tt)) (fun a b => (a + b) / 2) (fun _ _ m => m).
Definition fk0 := fk_world (fun _ => 0%R) (fun _ _ _ => false).
Definition fk_q (c : cluster (Z * Z * bool) Z) : R := stat_f AIC (free_pars fk0 c) (Z.of_nat (length (float_points fk0 0 c))) (fsum (map term_f (float_points fk0 0 c))).
Definition fk_g (q : R) (c : cluster (Z * Z * bool) Z) (n : nat) : bool :=
  growth_f AIC (free_pars fk0 c) (Z.of_nat n) (Z.of_nat (length (float_points fk0 0 c))) (fsum (map term_f (float_points fk0 0 c))).
Definition fkw := fk_world fk_q fk_g.
Lemma fkw_float : float_world fkw 0 AIC.
Proof. split; [|split; [reflexivity|]]; intros; exists (fsum (map term_f (float_points fk0 0 c))); (split; [apply fsum_ok|reflexivity]). Qed.
Definition fkc (h : Z) : cluster (Z * Z * bool) Z := mkC [(1, h, true)] None (mkArr 0 [0; 1]) (mkArr 1 [3; 4]) (mkArr 2 [1; 1]) 0 2 false 0 0 [0%nat].
Definition fkd : cluster (Z * Z * bool) Z := set_base (set_model (set_last (fkc 2) 2) [(1, 4, true)]) None.
Lemma fk_fit (q : cluster (Z * Z * bool) Z -> R) g : (q fkd <= q (fkc 2))%R ->
  fr_out (fit (fk_world q g) (fkc 2) false 0 false false) = Ok (Some (q fkd)) /\ fr_c (fit (fk_world q g) (fkc 2) false 0 false false) = fkd.
Proof.
  intros H. unfold fit. cbn [fkc c_never c_model c_size c_base set_last w_quality w_engine fk_world map fst snd andb negb].
  match goal with |- context[cleanfit ?w ?a ?b ?c] => assert (CL : exists n, cleanfit w a b c = Ok ([(1%Z, 4%Z, true)], n)) end.
  { eexists. unfold cleanfit. cbn. reflexivity. }
  destruct CL as [n CL]. rewrite CL. fold fkd. cbn [w_qlt fk_world andb].
  change (mkC [(1, 2, true)] None (mkArr 0 [0; 1]) (mkArr 1 [3; 4]) (mkArr 2 [1; 1]) 0 2 false 0 0 [0%nat]) with (fkc 2). fold fkd.
  match goal with |- context[Rltb ?a ?b] => assert (L : Rltb a b = false) by (change (Rltb (q (fkc 2)) (q fkd) = false); unfold Rltb; destruct (Rlt_dec (q (fkc 2)) (q fkd)); [lra|reflexivity]) end.
  rewrite L. split; reflexivity.
Qed.
Lemma int_float d : Z.abs d <= 2 ^ 52 -> is_float (IZR d).
Proof.
  intros H. replace (IZR d) with (F2R (Float radix2 d 0)) by (unfold F2R; cbn; lra).
  apply generic_format_FLT. exists (Float radix2 d 0); [reflexivity| |cbn; lia]. cbn [Fnum]. change (Zpower radix2 53) with (2 ^ 53). lia.
Qed.
Lemma int_normal d : d <> 0 -> normal (IZR d).
Proof.
  intros H. unfold normal. rewrite <- abs_IZR. apply Rle_trans with (bpow radix2 0); [apply bpow_le; lia|]. apply (IZR_le 1). lia.
Qed.
Lemma int_regular a b : Z.abs (a - b) <= 1000 -> regular ((IZR a * bpow radix2 0)%R, (IZR b * bpow radix2 0)%R, (IZR 1 * bpow radix2 0)%R).
Proof.
  intros H. change (bpow radix2 0) with 1%R. rewrite !Rmult_1_r. unfold regular.
  assert (S1 : sq 1 = 1%R) by (unfold sq; rewrite Rmult_1_r; apply rnd_id, is_1).
  split; [lra|]. split; [rewrite pow1; apply (int_normal 1); lia|]. destruct (Z.eq_dec a b) as [->|N]; [now left|right].
  rewrite <- minus_IZR. set (d := a - b) in *. assert (F : rnd (IZR d) = IZR d) by (apply rnd_id, int_float; lia). rewrite F.
  assert (E : (IZR d ^ 2)%R = IZR (d * d)) by (rewrite mult_IZR; ring). assert (D : d * d <> 0) by (unfold d; nia).
  split; [apply int_normal; lia|]. split; [rewrite E; now apply int_normal|].
  rewrite S1. unfold sq. rewrite <- mult_IZR, (rnd_id (IZR (d * d))) by (apply int_float; nia). replace (IZR (d * d) / 1)%R with (IZR (d * d)) by field. now apply int_normal.
Qed.
Lemma fk_scaled h : Z.abs h <= 100 -> well_scaled fkw 0 (fkc h).
Proof.
  intros H. split; [|split; [cbn; lia|cbn; lia]]. intros p [<-|[<-|[]]]; apply int_regular.
  - cbn. lia.
  - cbn -[Z.sub Z.abs]. lia.
Qed.
Lemma fkd_scaled : well_scaled fkw 0 fkd.
Proof. split; [|split; [cbn; lia|cbn; lia]]. intros p [<-|[<-|[]]]; apply int_regular; cbn; lia. Qed.
Lemma fk_exact : exact fkw 0 false (fkc 2) = 19%R /\ exact fkw 0 false fkd = 15%R.
Proof.
  rewrite !(C241_unit fkw 0 false fkw_float (fun _ => eq_refl) (fun b r => map_length _ r)) by (intros s [<-|[<-|[]]]; lia).
  unfold score. cbn. split; field.
Qed.
Example C241_nonvacuous :
  float_world fkw 0 AIC /\ argsort_ok (w_argsort fkw) /\
  fr_out (fit fkw (fkc 2) false 0 false false) = Ok (Some (fk_q fkd)) /\ fr_c (fit fkw (fkc 2) false 0 false false) = fkd /\
  well_scaled fkw 0 (fkc 2) /\ well_scaled fkw 0 fkd /\ exact fkw 0 false (fkc 2) = 19%R /\ exact fkw 0 false fkd = 15%R.
Proof.
  split; [exact fkw_float|]. split; [exact isort_ok|].
  assert (L : (fk_q fkd <= fk_q (fkc 2))%R).
  { left. pose proof (fk_scaled 2 ltac:(lia)) as (A1 & A2 & A3). pose proof fkd_scaled as (B1 & B2 & B3). destruct fk_exact as [E1 E2]. unfold exact in E1, E2.
    apply (proj2 (proj2 (C240_order_of_models_in_double_precision false (free_pars fkw fkd) (free_pars fkw (fkc 2)) (float_points fkw 0 fkd) (float_points fkw 0 (fkc 2)) _ _
      ltac:(unfold free_pars in *; lia) ltac:(unfold free_pars in *; lia) B3 A3
      ltac:(intros p Hp; apply in_app_or in Hp; destruct Hp; auto) (fsum_ok _) (fsum_ok _)))).
    rewrite E1, E2. change (length (float_points fkw 0 fkd)) with 2%nat. change (length (float_points fkw 0 (fkc 2))) with 2%nat. cbn. lra. }
  destruct (fk_fit fk_q fk_g L) as [F1 F2]. split; [exact F1|]. split; [exact F2|].
  split; [apply fk_scaled; lia|]. split; [exact fkd_scaled|]. exact fk_exact.
Qed.
(** The same for a single peak that is kept: 7 is at most 12. *)
Definition fkj : cluster (Z * Z * bool) Z := mkC [(1, 2, true)] None (mkArr 0 [0; 1]) (mkArr 1 [1; 4]) (mkArr 2 [1; 1]) 0 2 false 0 0 [0%nat].
Definition fkk : cluster (Z * Z * bool) Z := set_base (set_model (set_last fkj 2) [(1, 4, true)]) None.
Lemma fkj_fit (q : cluster (Z * Z * bool) Z -> R) g : (q fkk <= q fkj)%R -> g (q fkk) fkk 3%nat = false ->
  fr_out (fit (fk_world q g) fkj true 0 false false) = Ok (Some (q fkk)) /\ fr_c (fit (fk_world q g) fkj true 0 false false) = fkk.
Proof.
  intros H G. unfold fit. cbn [fkj c_never c_model c_size c_base set_last w_quality w_engine fk_world map fst snd andb negb].
  match goal with |- context[cleanfit ?w ?a ?b ?c] => assert (CL : exists n, cleanfit w a b c = Ok ([(1%Z, 4%Z, true)], n)) end.
  { eexists. unfold cleanfit. cbn. reflexivity. }
  destruct CL as [n CL]. rewrite CL. cbn [w_qlt w_growth fk_world andb length Nat.eqb Nat.ltb Nat.leb c_pf].
  change (mkC [(1, 2, true)] None (mkArr 0 [0; 1]) (mkArr 1 [1; 4]) (mkArr 2 [1; 1]) 0 2 false 0 0 [0%nat]) with fkj. fold fkk.
  match goal with |- context[Rltb ?a ?b] => assert (L : Rltb a b = false) by (change (Rltb (q fkj) (q fkk) = false); unfold Rltb; destruct (Rlt_dec (q fkj) (q fkk)); [lra|reflexivity]) end.
  rewrite L. match goal with |- context[min_npars ?w ?l] => replace (min_npars w l) with (@Ok nat 3%nat) by reflexivity end.
  cbv iota beta. match goal with |- context[g ?a ?b ?c] => replace (g a b c) with false by (symmetry; exact G) end. split; reflexivity.
Qed.
Example C241_single_peak_nonvacuous :
  fr_out (fit fkw fkj true 0 false false) = Ok (Some (fk_q fkk)) /\ fr_c (fit fkw fkj true 0 false false) = fkk /\
  well_scaled fkw 0 fkk /\ length (c_model fkk) = 1%nat /\ free_pars fkw fkk = 3 /\ exact fkw 0 false fkk = 7%R.
Proof.
  assert (SJ : well_scaled fkw 0 fkj) by (split; [|split; [cbn; lia|cbn; lia]]; intros p [<-|[<-|[]]]; apply int_regular; cbn; lia).
  assert (SK : well_scaled fkw 0 fkk) by (split; [|split; [cbn; lia|cbn; lia]]; intros p [<-|[<-|[]]]; apply int_regular; cbn; lia).
  assert (EJ : exact fkw 0 false fkj = 11%R /\ exact fkw 0 false fkk = 7%R).
  { rewrite !(C241_unit fkw 0 false fkw_float (fun _ => eq_refl) (fun b r => map_length _ r)) by (intros s [<-|[<-|[]]]; lia). unfold score. cbn. split; field. }
  destruct EJ as [EJ EK]. pose proof SJ as (A1 & A2 & A3). pose proof SK as (B1 & B2 & B3). pose proof EJ as EJ'. pose proof EK as EK'. unfold exact in EJ', EK'.
  assert (L : (fk_q fkk <= fk_q fkj)%R).
  { left. apply (proj2 (proj2 (C240_order_of_models_in_double_precision false (free_pars fkw fkk) (free_pars fkw fkj) (float_points fkw 0 fkk) (float_points fkw 0 fkj) _ _
      ltac:(unfold free_pars in *; lia) ltac:(unfold free_pars in *; lia) B3 A3
      ltac:(intros p Hp; apply in_app_or in Hp; destruct Hp; auto) (fsum_ok _) (fsum_ok _)))).
    rewrite EJ', EK'. change (length (float_points fkw 0 fkk)) with 2%nat. change (length (float_points fkw 0 fkj)) with 2%nat. cbn. lra. }
  assert (G : fk_g (fk_q fkk) fkk 3%nat = false).
  { destruct (fk_g (fk_q fkk) fkk 3%nat) eqn:X; [exfalso|reflexivity].
    pose proof (proj2 (C240_growth_in_double_precision false (free_pars fkw fkk) 3 (float_points fkw 0 fkk) (fsum (map term_f (float_points fkw 0 fkk)))
      ltac:(cbn; lia) ltac:(lia) ltac:(cbn; lia) B3 ltac:(cbn; lia) B1 (fsum_ok _))) as C. specialize (C X). rewrite EK' in C.
    change (free_pars fkw fkk + 3) with 6 in C. change (length (float_points fkw 0 fkk)) with 2%nat in C. cbn in C. lra. }
  destruct (fkj_fit fk_q fk_g L G) as [F1 F2]. split; [exact F1|]. split; [exact F2|]. split; [exact SK|]. split; [reflexivity|]. split; [reflexivity|exact EK].
Qed.

(** Property C44: the covariance attached to a fitted model. *)
From Coq Require Import Reals Lra Lia Psatz.
From Verif Require Import Prelude Covariance CovarianceProofs PeakFuncs PeakFuncsProofs PeakDerivProps.
Open Scope R_scope.

(** *** Specification *)
(** Parameter number n is parameter x of part p: the parameters of a model are numbered
    part after part. *)
Definition names (m : list cpart) (n p x : nat) : Prop :=
  exists part, nth_error m p = Some part /\ (x < length (cp_pars part))%nat /\
    n = (fold_right Nat.add 0 (map (fun q => length (cp_pars q)) (firstn p m)) + x)%nat.
(** Every part has as many flags as parameters. *)
Definition flags_ok (m : list cpart) : Prop := Forall (fun p => length (cp_free p) = length (cp_pars p)) m.
(** A covariance matrix: square, symmetric and positive semidefinite. *)
Definition valid_cov (v : matrix) : Prop := rows v = cols v /\ sym (rows v) (at_ v) /\ psd (rows v) (at_ v).

Lemma names_npar m n p x : names m n p x <-> (x < npar m p)%nat /\ n = (offset m p + x)%nat.
Proof.
  unfold names, npar, offset, total, cp_npars. split.
  - intros (part & E & L & ->). rewrite E. auto.
  - intros [L ->]. destruct (nth_error m p) as [part|]; [|lia]. exists part. auto.
Qed.
Lemma total_sum m : total m = fold_right Nat.add 0%nat (map (fun q => length (cp_pars q)) m).
Proof. reflexivity. Qed.

Lemma all_free_length m : flags_ok m -> length (all_free m) = total m.
Proof.
  unfold all_free, total. induction m as [|p m IH]; intros H; [reflexivity|]. inversion H; subst.
  cbn [map concat fold_right]. rewrite app_length, IH by assumption. unfold cp_npars. lia.
Qed.
Lemma nfree_le l : (nfree l <= length l)%nat.
Proof. unfold nfree. induction l as [|b l IH]; cbn; [lia|]. destruct b; cbn; lia. Qed.

(** What a successful setcovariance does to the matrix. *)
Lemma set_matrix c m v : flags_ok m -> m <> [] -> rows v = cols v -> (rows v = total m \/ rows v = nfree (all_free m)) ->
  exists c', setcovariance c m v = (c', Ok tt) /\ cv_model c' = Some m /\
    cv_cov c' = Some (if Nat.eqb (total m) (rows v) then v else expand (total m) (all_free m) v) /\
    (mmap c', pmap c', ipmap c') = snd (map_parts 0 0 m (mmap c) (pmap c) (ipmap c)).
Proof.
  intros FO Ne Sq Sh. unfold setcovariance. rewrite Sq, Nat.eqb_refl. cbn [negb].
  assert (negb (Nat.eqb (cols v) (total m)) && negb (Nat.eqb (cols v) (nfree (all_free m))) = false) as ->.
  { rewrite <- Sq. destruct Sh as [->| ->]; rewrite Nat.eqb_refl; cbn; [reflexivity|now rewrite andb_false_r]. }
  destruct m as [|p m]; [congruence|].
  pose proof (map_parts_n (p :: m) 0 0 (mmap c) (pmap c) (ipmap c)) as N.
  destruct (map_parts 0 0 (p :: m) (mmap c) (pmap c) (ipmap c)) as [n [[mm pm] ip]]. cbn [fst] in N. cbn [Nat.add] in N. subst n.
  eexists. split; [reflexivity|]. cbn [cv_model cv_cov mmap pmap ipmap]. auto.
Qed.

(** ** Rejected covariances change nothing. *)
Theorem C44_rejects_wrong_shapes :
  forall c m v, rows v <> cols v \/ (rows v <> total m /\ rows v <> nfree (all_free m)) ->
    setcovariance c m v = (c, Err ValueError).
Proof.
  intros c m v H. unfold setcovariance. destruct (Nat.eqb_spec (rows v) (cols v)) as [E|E]; cbn [negb]; [|reflexivity].
  destruct H as [H|[H1 H2]]; [congruence|].
  apply Nat.eqb_neq in H1, H2. now rewrite H1, H2.
Qed.
Print Assumptions C44_rejects_wrong_shapes.

(** ** Expansion to all parameters: the a-th free parameter keeps its row and column,
    fixed parameters have zero covariance with everything. *)
Theorem C44_expansion :
  forall c m v, flags_ok m -> m <> [] -> rows v = cols v -> rows v = nfree (all_free m) -> rows v <> total m ->
    exists c' full, setcovariance c m v = (c', Ok tt) /\ cv_model c' = Some m /\ cv_cov c' = Some full /\
      rows full = total m /\ cols full = total m /\
      (forall a b, (a < rows v)%nat -> (b < rows v)%nat ->
         at_ full (nth a (positions (all_free m)) 0%nat) (nth b (positions (all_free m)) 0%nat) = at_ v a b) /\
      (forall i j, nth i (all_free m) false = false \/ nth j (all_free m) false = false -> at_ full i j = 0).
Proof.
  intros c m v FO Ne Sq Nf Nt. destruct (set_matrix c m v FO Ne Sq (or_intror Nf)) as (c' & E & Em & Ec & _).
  rewrite (proj2 (Nat.eqb_neq (total m) (rows v))) in Ec by auto.
  exists c', (expand (total m) (all_free m) v). split; [exact E|]. split; [exact Em|]. split; [exact Ec|].
  split; [reflexivity|]. split; [reflexivity|]. split.
  - intros a b La Lb. rewrite Nf in La, Lb. destruct (positions_ok _ _ La) as (_ & A2 & A3), (positions_ok _ _ Lb) as (_ & B2 & B3).
    rewrite expand_ok, A2, B2, A3, B3. reflexivity.
  - intros i j H. rewrite expand_ok. destruct H as [-> | ->]; [reflexivity|]. now rewrite andb_false_r.
Qed.
Print Assumptions C44_expansion.

(** A covariance of all parameters is kept as it is. *)
Theorem C44_complete_matrix_kept :
  forall c m v, flags_ok m -> m <> [] -> rows v = cols v -> rows v = total m ->
    exists c', setcovariance c m v = (c', Ok tt) /\ cv_model c' = Some m /\ cv_cov c' = Some v.
Proof.
  intros c m v FO Ne Sq Nt. destruct (set_matrix c m v FO Ne Sq (or_introl Nt)) as (c' & E & Em & Ec & _).
  rewrite Nt, Nat.eqb_refl in Ec. eauto.
Qed.
Print Assumptions C44_complete_matrix_kept.

(** Either way a covariance matrix gives a covariance matrix. *)
Theorem C44_stays_a_covariance :
  forall c m v c' full, flags_ok m -> valid_cov v ->
    setcovariance c m v = (c', Ok tt) -> cv_cov c' = Some full ->
    valid_cov full /\ rows full = total m.
Proof.
  intros c m v c' full FO (Sq & Sy & Ps) E Ef.
  destruct (Nat.eq_dec (rows v) (total m)) as [Nt|Nt].
  - unfold setcovariance in E. rewrite Sq, Nat.eqb_refl in E. cbn [negb] in E. destruct (_ && _); [discriminate|].
    destruct m as [|p m]; [discriminate|].
    pose proof (map_parts_n (p :: m) 0 0 (mmap c) (pmap c) (ipmap c)) as N.
    destruct (map_parts 0 0 (p :: m) (mmap c) (pmap c) (ipmap c)) as [n [[mm pm] ip]]. cbn [fst] in N. cbn [Nat.add] in N. subst n.
    injection E as <-. cbn [cv_cov] in Ef. rewrite <- Sq, Nt, Nat.eqb_refl in Ef. injection Ef as <-.
    split; [|exact Nt]. split; [exact Sq|]. auto.
  - assert (Nf : rows v = nfree (all_free m)).
    { destruct (Nat.eq_dec (rows v) (nfree (all_free m))) as [|N]; [assumption|]. exfalso.
      rewrite C44_rejects_wrong_shapes in E by auto. discriminate. }
    assert (Ne : m <> []). { intros ->. cbn in Nt, Nf. congruence. }
    destruct (C44_expansion c m v FO Ne Sq Nf Nt) as (c2 & f2 & E2 & _ & Ec2 & R & Cc & H1 & H2).
    rewrite E in E2. injection E2 as <-. rewrite Ef in Ec2. injection Ec2 as <-.
    split; [|exact R]. split; [congruence|]. rewrite R. rewrite <- (all_free_length m FO). split.
    + (* symmetry *)
      destruct (set_matrix c m v FO Ne Sq (or_intror Nf)) as (c3 & E3 & _ & Ec3 & _). rewrite E in E3. injection E3 as <-.
      rewrite Ef in Ec3. injection Ec3 as Ec3. rewrite (proj2 (Nat.eqb_neq (total m) (rows v))) in Ec3 by auto. subst full.
      intros a b La Lb. rewrite !expand_ok.
      destruct (nth a (all_free m) false) eqn:Fa, (nth b (all_free m) false) eqn:Fb; cbn [andb]; try reflexivity.
      assert (RK : forall l k, (k < length l)%nat -> nth k l false = true -> (rank l k < nfree l)%nat).
      { clear. induction l as [|x l IH]; intros [|k] L T; cbn in L, T; try lia.
        - subst x. unfold rank, nfree. cbn. lia.
        - specialize (IH k ltac:(lia) T). unfold rank, nfree in *. cbn [firstn filter]. destruct x; cbn [length]; lia. }
      apply Sy; rewrite Nf; now apply RK.
    + intros x. rewrite rsum_positions.
      2:{ intros k _ Fk. apply rsum_zero. intros b _. rewrite H2 by auto. ring. }
      rewrite (rsum_ext _ _ (fun a => rsum (nfree (all_free m)) (fun b =>
         x (nth a (positions (all_free m)) 0%nat) * at_ v a b * x (nth b (positions (all_free m)) 0%nat)))).
      * rewrite <- Nf. apply (Ps (fun a => x (nth a (positions (all_free m)) 0%nat))).
      * intros a La. rewrite rsum_positions.
        2:{ intros k _ Fk. rewrite H2 by auto. ring. }
        apply rsum_ext. intros b Lb. rewrite H1 by lia. reflexivity.
Qed.
Print Assumptions C44_stays_a_covariance.

(** ** Look-ups on a fresh object: a pair and a number name the same parameter. *)
Lemma fresh_maps m v c' : setcovariance new_covar m v = (c', Ok tt) -> rows v = cols v /\ m <> [] /\ cv_model c' = Some m /\
  (exists full, cv_cov c' = Some full /\ ((rows v = total m /\ full = v) \/ full = expand (total m) (all_free m) v)) /\
  (forall k x, (x < npar m k)%nat -> pmap c' (k, x) = Some (offset m k + x)%nat) /\
  (forall k x, (npar m k <= x)%nat -> pmap c' (k, x) = None) /\
  (forall k x, (x < npar m k)%nat -> ipmap c' (offset m k + x)%nat = Some (k, x)) /\
  (forall y, (total m <= y)%nat -> ipmap c' y = None) /\
  (forall k, (k < length m)%nat -> mmap c' k = Some (offset m k, npar m k)) /\
  (forall k, (length m <= k)%nat -> mmap c' k = None).
Proof.
  intros E. unfold setcovariance in E. destruct (Nat.eqb_spec (rows v) (cols v)) as [Sq|]; cbn [negb] in E; [|discriminate].
  destruct (negb (Nat.eqb (rows v) (total m)) && negb (Nat.eqb (rows v) (nfree (all_free m)))); [discriminate|].
  destruct m as [|p m]; [discriminate|].
  pose proof (map_parts_n (p :: m) 0 0 (mmap new_covar) (pmap new_covar) (ipmap new_covar)) as N.
  destruct (map_parts 0 0 (p :: m) (mmap new_covar) (pmap new_covar) (ipmap new_covar)) as [n [[mm pm] ip]] eqn:EM.
  cbn [fst] in N. cbn [Nat.add] in N. subst n. injection E as <-. cbn [cv_model cv_cov mmap pmap ipmap].
  apply map_parts_ok in EM. destruct EM as (H1 & H2 & H3 & H4 & H5 & H6). cbn [Nat.add] in *.
  split; [exact Sq|]. split; [congruence|]. split; [reflexivity|]. split.
  { eexists. split; [reflexivity|]. destruct (Nat.eqb_spec (total (p :: m)) (rows v)) as [T|T]; [left|right]; auto. }
  split; [exact H1|]. split.
  { intros k x L. rewrite H2; [reflexivity|]. intros k0 ->. exact L. }
  split; [exact H3|]. split.
  { intros y L. rewrite H4 by lia. reflexivity. }
  split; [exact H5|]. intros k L. rewrite H6 by lia. reflexivity.
Qed.
Lemma entry_in m a b : (a < rows m)%nat -> (b < cols m)%nat -> entry m (Some (Z.of_nat a)) (Some (Z.of_nat b)) = Ok (Num (at_ m a b)).
Proof.
  intros La Lb. assert (G : forall n z, (z < n)%nat -> np_index n (Z.of_nat z) = Ok z).
  { intros n z L. unfold np_index. rewrite (proj2 (Z.ltb_ge (Z.of_nat z) 0)) by lia. cbn zeta.
    rewrite (proj2 (Z.ltb_ge (Z.of_nat z) 0)), (proj2 (Z.leb_gt (Z.of_nat n) (Z.of_nat z))) by lia. cbn [orb]. now rewrite Nat2Z.id. }
  unfold entry. rewrite !G by assumption. reflexivity.
Qed.
Lemma pyget_in {A} (l : list A) k a : nth_error l k = Some a -> pyget l (Z.of_nat k) = Ok a.
Proof.
  intros E. assert (L : (k < length l)%nat) by (apply nth_error_Some; congruence).
  unfold pyget. rewrite (proj2 (Z.ltb_ge (Z.of_nat k) 0)) by lia. cbn zeta.
  rewrite (proj2 (Z.ltb_ge (Z.of_nat k) 0)), (proj2 (Z.leb_gt (Z.of_nat (length l)) (Z.of_nat k))) by lia.
  cbn [orb]. now rewrite Nat2Z.id, E.
Qed.

Theorem C44_lookups :
  forall m v c', setcovariance new_covar m v = (c', Ok tt) ->
    exists full, cv_cov c' = Some full /\ rows full = total m /\ cols full = total m /\
    (* numbers below the total and pairs correspond one to one *)
    (forall n, (n < total m)%nat -> exists p x, names m n p x /\ forall p' x', names m n p' x' -> p' = p /\ x' = x) /\
    (* both ways of naming a parameter give its value, variance and uncertainty *)
    (forall n p x part val, names m n p x -> nth_error m p = Some part -> nth_error (cp_pars part) x = Some val ->
       getvalue c' (KPar p x) = Ok val /\ getvalue c' (KInt (Z.of_nat n)) = Ok val /\
       getuncertainty c' (KPar p x) = Ok (Num (sqrt (at_ full n n))) /\
       getuncertainty c' (KInt (Z.of_nat n)) = Ok (Num (sqrt (at_ full n n))) /\
       get c' (KPar p x) = Ok (val, Num (sqrt (at_ full n n)))) /\
    (forall n p x n' p' x', names m n p x -> names m n' p' x' ->
       getcovariance c' (KPar p x) (KPar p' x') = Ok (Num (at_ full n n')) /\
       getcovariance c' (KInt (Z.of_nat n)) (KInt (Z.of_nat n')) = Ok (Num (at_ full n n'))) /\
    (* anything else is refused *)
    (forall p x, (forall n, ~ names m n p x) -> getvalue c' (KPar p x) = Err KeyError) /\
    (forall z, ~ (0 <= z < Z.of_nat (total m))%Z -> getvalue c' (KInt z) = Err KeyError).
Proof.
  intros m v c' E. destruct (fresh_maps m v c' E) as (Sq & _ & Em & (full & Ef & Hf) & P1 & P2 & I1 & I2 & _).
  exists full. split; [exact Ef|].
  assert (R : rows full = total m /\ cols full = total m) by (destruct Hf as [[T ->]| ->]; [split; congruence|split; reflexivity]).
  destruct R as [R C]. split; [exact R|]. split; [exact C|]. split; [|split; [|split; [|split]]].
  - intros n L. destruct (number_exists m n L) as (p & x & X & ->). exists p, x. split; [apply names_npar; auto|].
    intros p' x' N. apply names_npar in N. destruct N as [N1 N2]. destruct (number_inj m p p' x x' X N1 N2). auto.
  - intros n p x part val N Ep Ev. apply names_npar in N. destruct N as [X ->].
    assert (Lp : (p < length m)%nat) by (apply nth_error_Some; congruence).
    pose proof (offset_le m p Lp) as OL.
    assert (V1 : getvalue c' (KPar p x) = Ok val).
    { unfold getvalue, locate. rewrite P1 by exact X. cbn [bind]. rewrite Em. cbn [fst snd].
      rewrite (pyget_in _ _ _ Ep). cbn [bind]. now rewrite (pyget_in _ _ _ Ev). }
    assert (U1 : getuncertainty c' (KPar p x) = Ok (Num (sqrt (at_ full (offset m p + x) (offset m p + x))))).
    { unfold getuncertainty, locate, getcovariance, index_of. rewrite P1 by exact X. cbn [bind option_map].
      rewrite Ef, entry_in by lia. reflexivity. }
    assert (LL : locate c' (KInt (Z.of_nat (offset m p + x))) = Ok (p, x)).
    { unfold locate. rewrite (proj2 (Z.ltb_ge _ 0)) by lia. rewrite Nat2Z.id, I1 by exact X. reflexivity. }
    split; [exact V1|]. split.
    { unfold getvalue. rewrite LL. cbn [bind]. rewrite Em. cbn [fst snd].
      rewrite (pyget_in _ _ _ Ep). cbn [bind]. now rewrite (pyget_in _ _ _ Ev). }
    split; [exact U1|]. split.
    { unfold getuncertainty. rewrite LL. cbn [bind]. unfold getcovariance, index_of. rewrite Ef, entry_in by lia. reflexivity. }
    unfold get. rewrite V1, U1. reflexivity.
  - intros n p x n' p' x' N N'. apply names_npar in N, N'. destruct N as [X ->], N' as [X' ->].
    pose proof (offset_le m p (npar_lt _ _ _ X)). pose proof (offset_le m p' (npar_lt _ _ _ X')).
    split.
    + unfold getcovariance, index_of. rewrite !P1 by assumption. cbn [option_map]. rewrite Ef. apply entry_in; lia.
    + unfold getcovariance, index_of. rewrite Ef. apply entry_in; lia.
  - intros p x H. unfold getvalue, locate. rewrite P2; [reflexivity|].
    destruct (Nat.le_gt_cases (npar m p) x) as [|L]; [assumption|]. exfalso. apply (H (offset m p + x)%nat). apply names_npar. auto.
  - intros z H. unfold getvalue, locate. destruct (Z.ltb_spec z 0); [reflexivity|]. rewrite I2 by lia. reflexivity.
Qed.
Print Assumptions C44_lookups.

(** A second setcovariance on the same object keeps the names of the first: with parts
    of 2 and 2 parameters followed by parts of 3 and 1, the pair (1,1), which names no
    parameter of the new model, still has a covariance. *)
Theorem C44_reuse_refuted :
  exists m1 v1 m2 v2 c1 c2, flags_ok m1 /\ flags_ok m2 /\
    setcovariance new_covar m1 v1 = (c1, Ok tt) /\ setcovariance c1 m2 v2 = (c2, Ok tt) /\
    (forall n, ~ names m2 n 1 1) /\
    getcovariance c2 (KPar 1 1) (KPar 1 1) = Ok (Num 7) /\
    getcovariance (fst (setcovariance (clear c1) m2 v2)) (KPar 1 1) (KPar 1 1) = Ok Other.
Proof.
  set (P := fun k => mkCp 0 (repeat 0 k) (repeat true k)).
  exists [P 2%nat; P 2%nat], (mkMat 4 4 (fun _ _ => 7)), [P 3%nat; P 1%nat], (mkMat 4 4 (fun _ _ => 7)).
  eexists. eexists. split; [repeat constructor|]. split; [repeat constructor|].
  split; [reflexivity|]. split; [reflexivity|]. split.
  { intros n (part & E & L & _). cbn in E. injection E as <-. cbn in L. lia. }
  split; reflexivity.
Qed.
Print Assumptions C44_reuse_refuted.

(** ** Correlations *)
Lemma corr_bound s a b : 0 < a -> 0 < b -> s * s <= a * b -> -1 <= s / (sqrt a * sqrt b) <= 1.
Proof.
  intros A B H. rewrite <- sqrt_mult by lra. assert (AB : 0 < a * b) by nra.
  pose proof (sqrt_lt_R0 _ AB) as S. pose proof (sqrt_sqrt (a * b) ltac:(lra)) as Q.
  assert (- sqrt (a * b) <= s <= sqrt (a * b)) by (split; nra).
  split; [apply Rmult_le_reg_r with (sqrt (a * b))|apply Rmult_le_reg_r with (sqrt (a * b))]; auto;
    unfold Rdiv; rewrite Rmult_assoc, Rinv_l by lra; lra.
Qed.
(** For any object whose matrix is a covariance matrix: a number in [-1,1], symmetric, 1
    for a parameter with itself, 0 when one of the two has no variance. *)
Theorem C44_correlations :
  forall c v i j, cv_cov c = Some v -> valid_cov v -> (i < rows v)%nat -> (j < rows v)%nat ->
    exists r, getcorrelation c (KInt (Z.of_nat i)) (KInt (Z.of_nat j)) = Ok (Num r) /\
      getcorrelation c (KInt (Z.of_nat j)) (KInt (Z.of_nat i)) = Ok (Num r) /\
      -1 <= r <= 1 /\
      (at_ v i i <> 0 -> at_ v j j <> 0 -> r = at_ v i j / (sqrt (at_ v i i) * sqrt (at_ v j j))) /\
      (at_ v i i = 0 \/ at_ v j j = 0 -> r = 0) /\
      (i = j -> at_ v i i <> 0 -> r = 1).
Proof.
  intros c v i j Ec (Sq & Sy & Ps) Li Lj. unfold getcorrelation, index_of. rewrite Ec, !entry_in by lia. cbn [bind].
  pose proof (psd_diag _ _ _ Li Ps) as Pi. pose proof (psd_diag _ _ _ Lj Ps) as Pj.
  destruct (Req_EM_T (at_ v i i) 0) as [Zi|Zi], (Req_EM_T (at_ v j j) 0) as [Zj|Zj];
    try (exists 0; repeat split; try lra; try reflexivity; intros; try contradiction; congruence).
  exists (at_ v i j / (sqrt (at_ v i i) * sqrt (at_ v j j))).
  split; [reflexivity|]. split.
  { rewrite (Sy j i Lj Li), (Rmult_comm (sqrt (at_ v j j))). reflexivity. }
  split. { apply corr_bound; [lra|lra|]. exact (cauchy _ _ _ _ Li Lj Ps Sy). }
  split; [reflexivity|]. split; [intros [?|?]; contradiction|].
  intros <- _. rewrite sqrt_sqrt by lra. field. exact Zi.
Qed.
Print Assumptions C44_correlations.

(** *** correlationwarning *)
Lemma warn_row_ok c thr i js (corr : nat -> R) (nm : nat -> nat * nat) :
  (forall j, In j js -> getcorrelation c (KInt (Z.of_nat i)) (KInt (Z.of_nat j)) = Ok (Num (corr j))) ->
  ipmap c i = Some (nm i) -> (forall j, In j js -> ipmap c j = Some (nm j)) ->
  exists l, warn_row c thr i js = Ok l /\
    l = map (fun j => (nm i, nm j, corr j)) (filter (fun j => if Req_EM_T (corr j) 0 then false else if Rlt_dec thr (Rabs (corr j)) then true else false) js).
Proof.
  intros Hc Hi. induction js as [|j js IH]; intros Hj; cbn [warn_row]; [eauto|].
  rewrite Hc by (now left). cbn [bind].
  destruct (IH ltac:(intros; apply Hc; now right) ltac:(intros; apply Hj; now right)) as (l & -> & ->).
  cbn [filter]. destruct (Req_EM_T (corr j) 0); cbn [bind]; [eexists; split; reflexivity|].
  destruct (Rlt_dec thr (Rabs (corr j))).
  - rewrite Hi, (Hj j) by (now left). cbn [bind]. eexists; split; reflexivity.
  - cbn [bind]. eexists; split; reflexivity.
Qed.
Lemma warn_all_ok c thr n is (corr : nat -> nat -> R) (nm : nat -> nat * nat) :
  (forall i j, (i < n)%nat -> (j < n)%nat -> getcorrelation c (KInt (Z.of_nat i)) (KInt (Z.of_nat j)) = Ok (Num (corr i j))) ->
  (forall i, (i < n)%nat -> ipmap c i = Some (nm i)) -> Forall (fun i => (i < n)%nat) is ->
  warn_all c thr n is = Ok (flat_map (fun i => map (fun j => (nm i, nm j, corr i j))
     (filter (fun j => if Req_EM_T (corr i j) 0 then false else if Rlt_dec thr (Rabs (corr i j)) then true else false) (seq (S i) (n - S i)))) is).
Proof.
  intros Hc Hn. induction is as [|i is IH]; intros F; cbn [warn_all flat_map]; [reflexivity|].
  inversion F; subst. destruct (warn_row_ok c thr i (seq (S i) (n - S i)) (corr i) nm) as (l & -> & ->).
  - intros j Hj. apply in_seq in Hj. apply Hc; lia.
  - now apply Hn.
  - intros j Hj. apply in_seq in Hj. apply Hn. lia.
  - cbn [bind]. rewrite IH by assumption. reflexivity.
Qed.
Lemma NoDup_app_intro {A} (l1 l2 : list A) : NoDup l1 -> NoDup l2 -> (forall x, In x l1 -> ~ In x l2) -> NoDup (l1 ++ l2).
Proof.
  induction l1 as [|a l1 IH]; intros H1 H2 D; cbn; [exact H2|]. inversion H1; subst. constructor.
  - rewrite in_app_iff. intros [|I]; [contradiction|]. exact (D a (or_introl eq_refl) I).
  - apply IH; auto. intros x I. apply D. now right.
Qed.
Lemma NoDup_map_inj {A B} (f : A -> B) l : (forall x y, In x l -> In y l -> f x = f y -> x = y) -> NoDup l -> NoDup (map f l).
Proof.
  induction l as [|a l IH]; intros H N; cbn; [constructor|]. inversion N; subst. constructor.
  - rewrite in_map_iff. intros (y & E & I). assert (y = a) by (apply H; [now right|now left|exact E]). subst. contradiction.
  - apply IH; auto. intros x y X Y. apply H; now right.
Qed.

(** The warning lists exactly the pairs of distinct parameters, the earlier one first,
    whose correlation exceeds the threshold in magnitude, each pair once. *)
Theorem C44_correlationwarning :
  forall m v c full thr, flags_ok m -> valid_cov v -> setcovariance new_covar m v = (c, Ok tt) -> cv_cov c = Some full -> 0 <= thr ->
    exists l, correlationwarning c thr = Ok l /\ NoDup (map fst l) /\
      forall p x q y r, In ((p, x), (q, y), r) l <->
        exists i j, (i < j)%nat /\ names m i p x /\ names m j q y /\
          getcorrelation c (KPar p x) (KPar q y) = Ok (Num r) /\ thr < Rabs r.
Proof.
  intros m v c full thr FO Vv E Ef Ht.
  destruct (C44_stays_a_covariance _ _ _ _ _ FO Vv E Ef) as [Vf R].
  destruct (fresh_maps m v c E) as (_ & _ & _ & _ & P1 & P2 & I1 & I2 & _).
  set (n := total m) in *.
  set (corr := fun i j => match getcorrelation c (KInt (Z.of_nat i)) (KInt (Z.of_nat j)) with Ok (Num r) => r | _ => 0 end).
  set (nm := fun i => match ipmap c i with Some q => q | None => (0, 0)%nat end).
  assert (Hc : forall i j, (i < n)%nat -> (j < n)%nat -> getcorrelation c (KInt (Z.of_nat i)) (KInt (Z.of_nat j)) = Ok (Num (corr i j))).
  { intros i j Li Lj. unfold corr. destruct (C44_correlations c full i j Ef Vf) as (r & -> & _); [lia|lia|reflexivity]. }
  assert (Hn : forall i, (i < n)%nat -> ipmap c i = Some (nm i)).
  { intros i Li. unfold nm. destruct (number_exists m i Li) as (p & x & X & ->). rewrite I1 by exact X. reflexivity. }
  assert (Nn : forall i p x, (i < n)%nat -> (nm i = (p, x) <-> names m i p x)).
  { intros i p x Li. unfold nm. destruct (number_exists m i Li) as (p0 & x0 & X & ->). rewrite I1 by exact X. rewrite names_npar. split.
    - intros Eq. injection Eq as <- <-. auto.
    - intros [X2 E2]. destruct (number_inj m p0 p x0 x X X2 E2) as [-> ->]. reflexivity. }
  assert (NI : forall i j, (i < n)%nat -> (j < n)%nat -> nm i = nm j -> i = j).
  { intros i j Li Lj Eq. destruct (nm i) as [p x] eqn:Ei. apply Nn in Ei; [|exact Li]. symmetry in Eq. apply Nn in Eq; [|exact Lj].
    apply names_npar in Ei, Eq. destruct Ei as [_ ->], Eq as [_ ->]. reflexivity. }
  pose proof (warn_all_ok c thr n (seq 0 n) corr nm Hc Hn) as W.
  assert (F : Forall (fun i => (i < n)%nat) (seq 0 n)). { apply Forall_forall. intros i I. apply in_seq in I. lia. }
  specialize (W F). eexists. split; [unfold correlationwarning; rewrite Ef, R; exact W|]. split.
  - clear W. revert F. generalize (seq_NoDup n 0). generalize (seq 0 n) as is. induction is as [|i is IH]; intros ND F; cbn [flat_map map]; [constructor|].
    inversion ND; subst. inversion F; subst. rewrite map_app. apply NoDup_app_intro.
    + rewrite map_map. cbn [fst]. apply NoDup_map_inj; [|apply NoDup_filter, seq_NoDup].
      intros a b Ia Ib Eq. apply filter_In in Ia, Ib. destruct Ia as [Ia _], Ib as [Ib _]. apply in_seq in Ia, Ib.
      injection Eq as Eq. apply NI; [lia|lia|exact Eq].
    + apply IH; assumption.
    + intros [a b] I1' I2'. rewrite in_map_iff in I1', I2'. destruct I1' as ([[a1 b1] r1] & Q1 & In1), I2' as ([[a2 b2] r2] & Q2 & In2).
      cbn [fst] in Q1, Q2. injection Q1 as -> ->. injection Q2 as -> ->.
      apply in_map_iff in In1. destruct In1 as (j1 & Q & _). injection Q as Qa _ _.
      apply in_flat_map in In2. destruct In2 as (i2 & Ii & In2). apply in_map_iff in In2. destruct In2 as (j2 & Q2 & _). injection Q2 as Qa2 _ _.
      assert (i = i2). { apply NI; [assumption| |congruence]. match goal with H : Forall _ is |- _ => exact (proj1 (Forall_forall _ _) H i2 Ii) end. }
      subst i2. contradiction.
  - intros p x q y r. rewrite in_flat_map. split.
    + intros (i & Ii & I). apply in_seq in Ii. apply in_map_iff in I. destruct I as (j & Q & I). apply filter_In in I. destruct I as [I T].
      apply in_seq in I. injection Q as Q1 Q2 Q3. assert (Lj : (j < n)%nat) by lia. assert (Li : (i < n)%nat) by lia.
      pose proof (proj1 (Nn i p x Li) Q1) as N1. pose proof (proj1 (Nn j q y Lj) Q2) as N2.
      exists i, j. split; [lia|]. split; [exact N1|]. split; [exact N2|].
      apply names_npar in N1, N2. destruct N1 as [X E1], N2 as [Y E2].
      split.
      { rewrite <- Q3, <- Hc by assumption. unfold getcorrelation, index_of. rewrite !P1 by assumption. cbn [option_map]. now rewrite <- E1, <- E2. }
      subst r. destruct (Req_EM_T (corr i j) 0); [discriminate|]. destruct (Rlt_dec thr (Rabs (corr i j))); [assumption|discriminate].
    + intros (i & j & L & N1 & N2 & G & T). pose proof N1 as N1'. pose proof N2 as N2'. apply names_npar in N1', N2'. destruct N1' as [X E1], N2' as [Y E2].
      pose proof (offset_le m p (npar_lt _ _ _ X)). pose proof (offset_le m q (npar_lt _ _ _ Y)). fold n in H, H0.
      assert (Li : (i < n)%nat) by lia. assert (Lj : (j < n)%nat) by lia.
      assert (Cr : corr i j = r).
      { pose proof (Hc i j Li Lj) as H1. rewrite E1, E2 in H1 at 1. unfold getcorrelation, index_of in G, H1. rewrite !P1 in G by assumption. cbn [option_map] in G.
        rewrite G in H1. congruence. }
      exists i. split; [apply in_seq; lia|]. apply in_map_iff. exists j. split.
      { rewrite Cr. rewrite (proj2 (Nn i p x Li) N1), (proj2 (Nn j q y Lj) N2). reflexivity. }
      apply filter_In. split; [apply in_seq; lia|]. rewrite Cr.
      destruct (Req_EM_T r 0) as [->|]; [rewrite Rabs_R0 in T; lra|]. destruct (Rlt_dec thr (Rabs r)); [reflexivity|contradiction].
Qed.
Print Assumptions C44_correlationwarning.

(** A model of 3 + 1 parameters with one of them fixed, and the covariance of the other
    three, meet the hypotheses. *)
Example C44_nonvacuous :
  let m := [mkCp 0 [1; 2; 3] [true; false; true]; mkCp 1 [4] [true]] in
  flags_ok m /\ valid_cov (mkMat 3 3 identity) /\ rows (mkMat 3 3 identity) = nfree (all_free m) /\ total m = 4%nat /\
  positions (all_free m) = [0; 2; 3]%nat /\ exists c, setcovariance new_covar m (mkMat 3 3 identity) = (c, Ok tt).
Proof.
  cbn zeta. split; [repeat constructor|]. split.
  { split; [reflexivity|]. cbn [rows at_]. split.
    - intros a b _ _. unfold identity. now rewrite Nat.eqb_sym.
    - intros x. cbn [rsum]. unfold identity. cbn. nra. }
  split; [reflexivity|]. split; [reflexivity|]. split; [reflexivity|]. eexists. reflexivity.
Qed.

(** Property C70: changing the parameters' format. *)
From Coq Require Import Reals Lra Lia Psatz.
From Coquelicot Require Import Coquelicot.
From Verif Require Import Prelude Covariance CovarianceProofs CovarianceProps PeakFuncs PeakFuncsProofs PeakDerivProps.
Open Scope R_scope.

Section Transform.
Variable F : Type.
Variable deriv : nat -> F -> F -> list R -> result (nat -> nat -> R).
Variable trans : nat -> F -> F -> list R -> result (list R).
Notation transform := (Covariance.transform deriv trans).

(** *** Specification *)
(** The gradient matrix a part contributes: its function's, or the identity when the
    part is not selected, has no such gradient or cannot be converted. *)
Definition gradient (sel : list nat) (i o : F) (k : nat) (p : cpart) (x y : nat) : R :=
  if in_dec Nat.eq_dec k sel then
    match trans (cp_fn p) i o (cp_pars p), deriv (cp_fn p) i o (cp_pars p) with
    | Ok _, Ok g => g x y
    | _, _ => identity x y
    end
  else identity x y.
(** The part afterwards. *)
Definition converted (sel : list nat) (i o : F) (k : nat) (p : cpart) : cpart :=
  if in_dec Nat.eq_dec k sel then
    match trans (cp_fn p) i o (cp_pars p) with Ok ps => mkCp (cp_fn p) ps (cp_free p) | Err _ => p end
  else p.

Lemma step_fst i o p : fst (step_part deriv trans i o p) = match trans (cp_fn p) i o (cp_pars p) with
   | Ok _ => match deriv (cp_fn p) i o (cp_pars p) with Ok g => g | Err _ => identity end | Err _ => identity end.
Proof. unfold step_part. destruct (trans _ _ _ _); reflexivity. Qed.
Lemma step_snd i o p : snd (step_part deriv trans i o p) = match trans (cp_fn p) i o (cp_pars p) with
   | Ok ps => mkCp (cp_fn p) ps (cp_free p) | Err _ => p end.
Proof. unfold step_part. destruct (trans _ _ _ _); reflexivity. Qed.

(** The sum that the code computes, for a selection of distinct existing parts that have
    parameters: entry (x of p, y of q) is  sum_k sum_l G_p[x,k] V[l of q, k of p] G_q[l,y]. *)
Lemma transform_exact m v c i o s sel :
  setcovariance new_covar m v = (c, Ok tt) -> selected m s = map Z.of_nat sel ->
  NoDup sel -> Forall (fun k => (0 < npar m k)%nat) sel ->
  exists c' full full' m', cv_cov c = Some full /\ transform c i o s = (c', Ok tt) /\ cv_cov c' = Some full' /\
    rows full' = rows full /\ cols full' = cols full /\ cv_model c' = Some m' /\ length m' = length m /\
    (forall k p, nth_error m k = Some p -> nth_error m' k = Some (converted sel i o k p)) /\
    forall p q pp qq x y, nth_error m p = Some pp -> nth_error m q = Some qq -> (x < npar m p)%nat -> (y < npar m q)%nat ->
      at_ full' (offset m p + x)%nat (offset m q + y)%nat =
      rsum (npar m q) (fun l => rsum (npar m p) (fun k =>
         gradient sel i o p pp x k * at_ full (offset m q + l)%nat (offset m p + k)%nat * gradient sel i o q qq l y)).
Proof.
  intros E Es ND FA. destruct (fresh_maps m v c E) as (Sq & _ & Em & (full & Ef & Hf) & _ & _ & _ & _ & MM & _).
  assert (R : rows full = total m) by (destruct Hf as [[T ->]| ->]; [congruence|reflexivity]).
  assert (FA' : Forall (fun k => (k < length m)%nat /\ (0 < npar m k)%nat) sel).
  { revert FA. apply Forall_impl. intros k K. split; [exact (npar_lt _ _ _ K)|exact K]. }
  destruct (convert_ok F deriv trans c i o m MM sel m identity ND FA' eq_refl) as (m' & g & EC & Lm & H1 & H2 & H3).
  unfold Covariance.transform. rewrite Ef, Em, Es, EC.
  eexists. exists full. eexists. exists m'. split; [reflexivity|]. split; [reflexivity|]. cbn [cv_cov cv_model rows cols at_].
  split; [reflexivity|]. split; [reflexivity|]. split; [reflexivity|]. split; [reflexivity|]. split; [exact Lm|]. split.
  { intros k p Ek. rewrite (H1 k p Ek). unfold converted. destruct (in_dec Nat.eq_dec k sel); [|reflexivity]. now rewrite step_snd. }
  (* g is block diagonal *)
  assert (GB : forall p q pp x y, nth_error m p = Some pp -> (x < npar m p)%nat -> (y < npar m q)%nat ->
     g (offset m p + x)%nat (offset m q + y)%nat = if Nat.eqb p q then gradient sel i o p pp x y else 0).
  { intros p q pp x y Ep X Y. destruct (Nat.eqb_spec p q) as [<-|Ne].
    - unfold gradient. destruct (in_dec Nat.eq_dec p sel) as [I|I].
      + rewrite (H2 p pp I Ep x y X Y), step_fst.
        destruct (trans (cp_fn pp) i o (cp_pars pp)), (deriv (cp_fn pp) i o (cp_pars pp)); reflexivity.
      + rewrite H3.
        * unfold identity. destruct (Nat.eqb_spec (offset m p + x) (offset m p + y)), (Nat.eqb_spec x y); try reflexivity; lia.
        * intros k Ik [K1 K2]. assert (Np : k <> p) by (intros ->; contradiction).
          pose proof (npar_lt _ _ _ X). assert (k < length m)%nat.
          { exact (proj1 (proj1 (Forall_forall _ _) FA' k Ik)). }
          destruct (Nat.lt_trichotomy k p) as [L|[L|L]]; [|lia|].
          { pose proof (offset_sep m k p L ltac:(lia)). lia. }
          { pose proof (offset_sep m p k L ltac:(lia)). lia. }
    - pose proof (npar_lt _ _ _ X). pose proof (npar_lt _ _ _ Y). rewrite H3.
      + unfold identity. destruct (Nat.eqb_spec (offset m p + x) (offset m q + y)) as [Eq|]; [|reflexivity].
        destruct (number_inj m p q x y X Y Eq). congruence.
      + intros k Ik [K1 K2]. assert (k < length m)%nat.
        { exact (proj1 (proj1 (Forall_forall _ _) FA' k Ik)). }
        assert (p = k).
        { destruct (Nat.lt_trichotomy k p) as [L|[L|L]]; [|auto|].
          - pose proof (offset_sep m k p L ltac:(lia)). lia.
          - pose proof (offset_sep m p k L ltac:(lia)). lia. }
        subst k. destruct (Nat.lt_trichotomy p q) as [L|[L|L]]; [|lia|].
        { pose proof (offset_sep m p q L ltac:(lia)). lia. }
        { pose proof (offset_sep m q p L ltac:(lia)). lia. } }
  intros p q pp qq x y Ep Eq X Y.
  assert (Lp : (p < length m)%nat) by (apply nth_error_Some; congruence).
  assert (Lq : (q < length m)%nat) by (apply nth_error_Some; congruence).
  pose proof (offset_le m p Lp) as OP. pose proof (offset_le m q Lq) as OQ.
  assert (ZG : forall a p0 x0 y0, (x0 < npar m p0)%nat -> (y0 < npar m p0)%nat -> (a < total m)%nat ->
     (a < offset m p0 \/ offset m p0 + npar m p0 <= a)%nat ->
     g a (offset m p0 + y0)%nat = 0 /\ g (offset m p0 + x0)%nat a = 0).
  { intros a p0 x0 y0 X0 Y0 La Out. destruct (number_exists m a La) as (k & z & Z & ->).
    pose proof (npar_lt _ _ _ Z) as Lk. pose proof (npar_lt _ _ _ X0) as Lp0.
    assert (k <> p0) by (intros ->; lia).
    destruct (nth_error m k) as [kk|] eqn:Ek; [|apply nth_error_None in Ek; lia].
    destruct (nth_error m p0) as [kp|] eqn:Ep0; [|apply nth_error_None in Ep0; lia].
    rewrite (GB k p0 kk z y0 Ek Z Y0), (GB p0 k kp x0 z Ep0 X0 Z).
    rewrite (proj2 (Nat.eqb_neq k p0)), (proj2 (Nat.eqb_neq p0 k)) by auto. auto. }
  cbn [at_]. unfold sandwich. rewrite R. rewrite (rsum_block (total m) (offset m q) (npar m q)); [|exact OQ|].
  2:{ intros k K Out. rewrite (proj1 (ZG k q y y Y Y K Out)). ring. }
  apply rsum_ext. intros l L. rewrite (GB q q qq l y Eq L Y), Nat.eqb_refl.
  rewrite (rsum_block (total m) (offset m p) (npar m p)); [|exact OP|].
  2:{ intros k K Out. rewrite (proj2 (ZG k p x x X X K Out)). ring. }
  rewrite <- rsum_scal_r. apply rsum_ext. intros k K. rewrite (GB p p pp x k Ep X K), Nat.eqb_refl. reflexivity.
Qed.

(** ** Propagation: when the gradients of the parts are symmetric matrices (they are
    diagonal for every function of the package that has one), the covariance becomes
    J V J^T, block by block. *)
Theorem C70_transform_propagates :
  forall m v c i o s sel, flags_ok m -> valid_cov v ->
    setcovariance new_covar m v = (c, Ok tt) -> selected m s = map Z.of_nat sel ->
    NoDup sel -> Forall (fun k => (0 < npar m k)%nat) sel ->
    (forall k p x y, nth_error m k = Some p -> (x < npar m k)%nat -> (y < npar m k)%nat ->
       gradient sel i o k p x y = gradient sel i o k p y x) ->
    exists c' full full' m', cv_cov c = Some full /\ transform c i o s = (c', Ok tt) /\
      cv_cov c' = Some full' /\ rows full' = rows full /\ cols full' = cols full /\
      cv_model c' = Some m' /\ length m' = length m /\
      (forall k p, nth_error m k = Some p -> nth_error m' k = Some (converted sel i o k p)) /\
      forall p q pp qq n n' x y, nth_error m p = Some pp -> nth_error m q = Some qq -> names m n p x -> names m n' q y ->
        at_ full' n n' =
        rsum (npar m p) (fun k => rsum (npar m q) (fun l =>
          gradient sel i o p pp x k * at_ full (offset m p + k)%nat (offset m q + l)%nat * gradient sel i o q qq y l)).
Proof.
  intros m v c i o s sel FO Vv E Es ND FA Sy.
  destruct (transform_exact m v c i o s sel E Es ND FA) as (c' & full & full' & m' & Ef & Et & Ef' & R & C & Em' & Lm & Hm & H).
  destruct (C44_stays_a_covariance _ _ _ _ _ FO Vv E Ef) as [(_ & Sf & _) Rf].
  exists c', full, full', m'. do 8 (split; [assumption|]).
  intros p q pp qq n n' x y Ep Eq N N'. apply names_npar in N, N'. destruct N as [X ->], N' as [Y ->].
  rewrite (H p q pp qq x y Ep Eq X Y), rsum_swap. apply rsum_ext. intros k K. apply rsum_ext. intros l L.
  pose proof (offset_le m p (npar_lt _ _ _ X)). pose proof (offset_le m q (npar_lt _ _ _ Y)).
  rewrite (Sf (offset m q + l)%nat (offset m p + k)%nat) by lia. rewrite (Sy q qq l y Eq L Y). reflexivity.
Qed.

(** transform on an object without covariance is refused and changes nothing. *)
Theorem C70_transform_needs_covariance : forall c i o s, cv_cov c = None -> transform c i o s = (c, Err UndefinedCov).
Proof. intros c i o s E. unfold Covariance.transform. now rewrite E. Qed.

(** parts="baseline", documented to convert only the last part, always fails. *)
Theorem C95_baseline_selection_refuted :
  forall m v c i o, setcovariance new_covar m v = (c, Ok tt) -> transform c i o BaselineOnly = (c, Err KeyError).
Proof.
  intros m v c i o E. destruct (fresh_maps m v c E) as (_ & _ & Em & (full & Ef & _) & _).
  unfold Covariance.transform. rewrite Ef, Em. cbn [selected convert]. destruct c. cbn in *. congruence.
Qed.
End Transform.
Print Assumptions C70_transform_propagates.
Print Assumptions C70_transform_needs_covariance.
Print Assumptions C95_baseline_selection_refuted.

(** A gradient that is not symmetric is propagated wrongly: for y0 = x0 + x1, y1 = x1 and
    independent x0, x1 of variance 1 the variance of y0 is 2; the code gives 1. *)
Theorem C95_nonsymmetric_gradient_refuted :
  exists (g : nat -> nat -> R) m v c c' full',
    valid_cov v /\ setcovariance new_covar m v = (c, Ok tt) /\
    Covariance.transform (F := unit) (fun _ _ _ _ => Ok g) (fun _ _ _ ps => Ok [nth 0 ps 0 + nth 1 ps 0; nth 1 ps 0]) c tt tt AllParts = (c', Ok tt) /\
    cv_cov c' = Some full' /\ at_ full' 0%nat 0%nat = 1 /\
    rsum 2 (fun k => rsum 2 (fun l => g 0%nat k * at_ v k l * g 0%nat l)) = 2.
Proof.
  set (g := fun a b : nat => match a, b with 0%nat, 0%nat | 0%nat, 1%nat | 1%nat, 1%nat => 1 | _, _ => 0 end).
  exists g, [mkCp 0 [3; 4] [true; true]], (mkMat 2 2 identity). do 3 eexists.
  split. { split; [reflexivity|]. cbn [rows at_]. split.
    - intros a b _ _. unfold identity. now rewrite Nat.eqb_sym.
    - intros x. cbn [rsum]. unfold identity. cbn. nra. }
  split; [reflexivity|]. split; [cbv [Covariance.transform cv_cov cv_model]; reflexivity|].
  split; [reflexivity|]. split.
  - cbn [at_]. unfold sandwich. cbn [rsum rows]. unfold set_block. cbn. unfold g, identity. cbn. lra.
  - cbn [rsum at_]. unfold g, identity. cbn. lra.
Qed.
Print Assumptions C95_nonsymmetric_gradient_refuted.

(** A failure half way leaves the parts before it converted: a baseline without
    parameters (Arbitrary with none, FromSequence) as last part. *)
Theorem C95_partial_conversion_refuted :
  exists m v c c' m', setcovariance new_covar m v = (c, Ok tt) /\
    Covariance.transform (F := unit) (fun _ _ _ _ => Ok identity) (fun _ _ _ ps => Ok (map (fun x => 2 * x) ps)) c tt tt AllParts = (c', Err IndexError) /\
    cv_cov c' = cv_cov c /\ cv_model c' = Some m' /\ m' = [mkCp 0 [6] [true]; mkCp 1 [] []] /\ m = [mkCp 0 [3] [true]; mkCp 1 [] []].
Proof.
  exists [mkCp 0 [3] [true]; mkCp 1 [] []], (mkMat 1 1 identity). do 3 eexists. split; [reflexivity|].
  split; [cbv [Covariance.transform cv_cov cv_model]; reflexivity|]. split; [reflexivity|]. split; [reflexivity|].
  split; [cbn; repeat f_equal; lra|reflexivity].
Qed.
Print Assumptions C95_partial_conversion_refuted.

(** ** The package's functions: 0 is GaussianOverR, 1 is Gaussian, anything else is a
    function whose only format is "internal" (the baselines). *)
Section Concrete.
Variable W : R.
Definition to3 (ps : list R) : result pars3 := match ps with [a; b; c] => Ok (P3 a b c) | _ => Err ValueError end.
(** transform_derivatives, basefunction.py:245-287; NotImplementedError (193)
    is [NotImplementedErr] *)
Definition pkg_deriv (fn : nat) (i o : fmt) (ps : list R) : result (nat -> nat -> R) :=
  match fn with
  | 0%nat => if fmt_eqb i o then Ok identity else
             do p <- to3 ps; match transform_derivatives W i o p with Some g => Ok g | None => Err ValueError end
  | 1%nat => if fmt_eqb i o then Ok identity else Err NotImplementedErr
  | _ => if fmt_eqb i Internal && fmt_eqb o Internal then Ok identity else Err ValueError
  end.
(** transform_parameters, basefunction.py:289-340.  A width whose conversion is NaN is
    given as Err. *)
Definition pkg_trans (fn : nat) (i o : fmt) (ps : list R) : result (list R) :=
  match fn with
  | 0%nat | 1%nat =>
      do p <- to3 ps; do t <- PeakFuncs.transform W i o p;
      match t with (m, Some w, a) => Ok [m; w; a] | (_, None, _) => Err ValueError end
  | _ => if fmt_eqb i Internal && fmt_eqb o Internal then Ok ps else Err ValueError
  end.

(** A model of GaussianOverR peaks, each in the interior of its format's domain, and
    baselines: between two different peak formats the covariance becomes D V D^T, where
    D is made of the partial derivatives of the converted parameters. *)
Theorem C70_gaussianoverr_propagation :
  forall m v c i o, 0 < W -> i <> o -> flags_ok m -> valid_cov v -> setcovariance new_covar m v = (c, Ok tt) ->
    Forall (fun p => (0 < length (cp_pars p))%nat) m ->
    (forall p, In p m -> (cp_fn p = 0%nat /\ exists t, to3 (cp_pars p) = Ok t /\ interior W i t) \/ (2 <= cp_fn p)%nat) ->
    exists c' full full' m' (D : nat -> nat -> nat -> R),
      cv_cov c = Some full /\ Covariance.transform pkg_deriv pkg_trans c i o AllParts = (c', Ok tt) /\
      cv_cov c' = Some full' /\ cv_model c' = Some m' /\
      (* the entries of D are derivatives *)
      (forall k p t, nth_error m k = Some p -> cp_fn p = 0%nat -> to3 (cp_pars p) = Ok t ->
         (exists m1 w1 a1, PeakFuncs.transform W i o t = Ok (m1, Some w1, a1) /\ nth_error m' k = Some (mkCp 0 [m1; w1; a1] (cp_free p))) /\
         forall x y, (x < 3)%nat -> (y < 3)%nat ->
           has_derivative (fun q => component x (PeakFuncs.transform W i o (with_par y t q))) (get_par y t) (D k x y)) /\
      (* baselines are left alone *)
      (forall k p, nth_error m k = Some p -> (2 <= cp_fn p)%nat -> nth_error m' k = Some p /\ forall x y, D k x y = if Nat.eqb x y then 1 else 0) /\
      forall p q pp qq n n' x y, nth_error m p = Some pp -> nth_error m q = Some qq -> names m n p x -> names m n' q y ->
        at_ full' n n' =
        rsum (length (cp_pars pp)) (fun k => rsum (length (cp_pars qq)) (fun l =>
          D p x k * at_ full (offset m p + k)%nat (offset m q + l)%nat * D q y l)).
Proof.
  intros m v c i o HW Hio FO Vv E Pos Kind.
  set (sel := seq 0 (length m)).
  assert (Sel : forall k p, nth_error m k = Some p -> In k sel).
  { intros k p Ek. apply in_seq. split; [lia|]. cbn. apply nth_error_Some. congruence. }
  set (D := fun k => match nth_error m k with Some p => gradient fmt pkg_deriv pkg_trans sel i o k p | None => identity end).
  assert (FE : fmt_eqb i o = false) by (destruct i, o; try reflexivity; congruence).
  assert (FI : fmt_eqb i Internal && fmt_eqb o Internal = false) by (destruct i, o; try reflexivity; congruence).
  assert (GOR : forall k p t, nth_error m k = Some p -> cp_fn p = 0%nat -> to3 (cp_pars p) = Ok t -> interior W i t ->
     (exists m1 w1 a1, PeakFuncs.transform W i o t = Ok (m1, Some w1, a1) /\ pkg_trans 0 i o (cp_pars p) = Ok [m1; w1; a1]) /\
     exists g, transform_derivatives W i o t = Some g /\ forall x y, gradient fmt pkg_deriv pkg_trans sel i o k p x y = g x y).
  { intros k p t Ek Ep Et It.
    destruct (C26_gradient_matrix W i o t HW Hio It) as (g & Eg & Hg).
    assert (T : exists m1 w1 a1, PeakFuncs.transform W i o t = Ok (m1, Some w1, a1)).
    { destruct (Hg 1%nat 1%nat ltac:(lia) ltac:(lia)) as (f & eps & He & Hf & _).
      specialize (Hf (get_par 1 t)). rewrite Rminus_eq_0, Rabs_R0 in Hf. specialize (Hf He).
      assert (WP : with_par 1 t (get_par 1 t) = t) by (destruct t; reflexivity). rewrite WP in Hf.
      destruct (PeakFuncs.transform W i o t) as [[[m1 w1] a1]|]; cbn [component] in Hf; [|discriminate].
      rewrite Hf. eauto. }
    destruct T as (m1 & w1 & a1 & T). assert (PT : pkg_trans 0 i o (cp_pars p) = Ok [m1; w1; a1]).
    { unfold pkg_trans. rewrite Et. cbn [bind]. rewrite T. reflexivity. }
    split; [eauto|]. exists g. split; [exact Eg|]. intros x y. unfold gradient.
    destruct (in_dec Nat.eq_dec k sel) as [_|N]; [|exfalso; apply N; eapply Sel; eassumption].
    rewrite Ep, PT. unfold pkg_deriv. rewrite FE, Et. cbn [bind]. rewrite Eg. reflexivity. }
  assert (BAS : forall k p, nth_error m k = Some p -> (2 <= cp_fn p)%nat ->
     pkg_trans (cp_fn p) i o (cp_pars p) = Err ValueError /\ forall x y, gradient fmt pkg_deriv pkg_trans sel i o k p x y = identity x y).
  { intros k p Ek L. assert (PT : pkg_trans (cp_fn p) i o (cp_pars p) = Err ValueError).
    { unfold pkg_trans. destruct (cp_fn p) as [|[|f]]; try lia. now rewrite FI. }
    split; [exact PT|]. intros x y. unfold gradient. rewrite PT. destruct (in_dec Nat.eq_dec k sel); reflexivity. }
  assert (SelE : selected m AllParts = map Z.of_nat sel) by reflexivity.
  assert (FA : Forall (fun k => (0 < npar m k)%nat) sel).
  { apply Forall_forall. intros k Ik. apply in_seq in Ik. unfold npar. destruct (nth_error m k) as [p|] eqn:Ek.
    - apply nth_error_In in Ek. exact (proj1 (Forall_forall _ _) Pos p Ek).
    - apply nth_error_None in Ek. lia. }
  destruct (C70_transform_propagates fmt pkg_deriv pkg_trans m v c i o AllParts sel FO Vv E SelE (seq_NoDup _ _) FA)
    as (c' & full & full' & m' & Ef & Et & Ef' & _ & _ & Em' & _ & Hm & H).
  { intros k p x y Ek X Y. destruct (Kind p (nth_error_In _ _ Ek)) as [(Ep & t & Et & It)|L].
    - destruct (GOR k p t Ek Ep Et It) as (_ & g & Eg & Hg). rewrite !Hg. unfold transform_derivatives in Eg. rewrite FE in Eg.
      injection Eg as <-. rewrite (Nat.eqb_sym y x). destruct (Nat.eqb_spec x y) as [->|]; reflexivity.
    - destruct (BAS k p Ek L) as [_ Hg]. rewrite !Hg. unfold identity. now rewrite Nat.eqb_sym. }
  exists c', full, full', m', D. do 4 (split; [assumption|]).
  split; [|split].
  - intros k p t Ek Ep Et3. destruct (Kind p (nth_error_In _ _ Ek)) as [(_ & t' & Et' & It)|L]; [|lia].
    rewrite Et3 in Et'. injection Et' as <-. destruct (GOR k p t Ek Ep Et3 It) as ((m1 & w1 & a1 & T & PT) & g & Eg & Hg).
    split.
    + exists m1, w1, a1. split; [exact T|]. rewrite (Hm k p Ek). unfold converted.
      destruct (in_dec Nat.eq_dec k sel) as [_|N]; [|exfalso; apply N; eapply Sel; eassumption]. now rewrite Ep, PT.
    + intros x y X Y. unfold D. rewrite Ek, Hg. destruct (C26_gradient_matrix W i o t HW Hio It) as (g' & Eg' & Hg').
      rewrite Eg in Eg'. injection Eg' as <-. now apply Hg'.
  - intros k p Ek L. destruct (BAS k p Ek L) as [PT Hg]. split.
    + rewrite (Hm k p Ek). unfold converted. rewrite PT. destruct (in_dec Nat.eq_dec k sel); reflexivity.
    + intros x y. unfold D. rewrite Ek, Hg. reflexivity.
  - intros p q pp qq n n' x y Ep Eq N N'. rewrite (H p q pp qq n n' x y Ep Eq N N').
    unfold D. rewrite Ep, Eq. unfold npar. rewrite Ep, Eq. reflexivity.
Qed.

End Concrete.
Print Assumptions C70_gaussianoverr_propagation.

(** With Gaussian peaks, which have no gradient, the parameters are converted and the
    covariance is not: the uncertainty reported for sigma is the one of the FWHM,
    although sigma = FWHM / 2.35. *)
Theorem C95_gaussian_refuted :
  exists m v c c' sigma, valid_cov v /\ setcovariance new_covar m v = (c, Ok tt) /\
    Covariance.transform (pkg_deriv 2) (pkg_trans 2) c Pwa MuSigmaArea AllParts = (c', Ok tt) /\
    getvalue c (KPar 0 1) = Ok 1 /\ getuncertainty c (KPar 0 1) = Ok (Num 1) /\
    getvalue c' (KPar 0 1) = Ok sigma /\ sigma * sigma2fwhm = 1 /\ sigma <> 1 /\
    getuncertainty c' (KPar 0 1) = Ok (Num 1).
Proof.
  assert (S1 : 1 < sigma2fwhm).
  { unfold sigma2fwhm. assert (1 / 2 < ln 2) by (pose proof ln_lt_2; lra).
    assert (1 < sqrt (2 * ln 2)). { rewrite <- sqrt_1 at 1. apply sqrt_lt_1; lra. } lra. }
  assert (T : pkg_trans 2 1 Pwa MuSigmaArea [3; 1; 4] = Ok [3; 1 / sigma2fwhm; 4]).
  { unfold pkg_trans, to3. cbn [bind]. unfold PeakFuncs.transform, width_in. cbn [fmt_eqb andb negb p_wid p_pos p_area bind].
    destruct (Rlt_dec 2 1) as [L|_]; [lra|]. destruct (Rle_dec (-(2)) 1) as [_|L]; [|lra]. cbn [bind option_map].
    do 3 f_equal. unfold width_out. rewrite sin_asin by lra.
    replace (1 / 2 * (2 * 1 ^ 2 / 2 ^ 2 - 1 + 1) * 2 ^ 2) with 1 by lra. rewrite sqrt_1. reflexivity. }
  set (m := [mkCp 1 [3; 1; 4] [true; true; true]]). set (v := mkMat 3 3 identity).
  assert (Vv : valid_cov v).
  { split; [reflexivity|]. cbn [rows at_ v]. split.
    - intros a b _ _. unfold identity. now rewrite Nat.eqb_sym.
    - intros x. cbn [rsum]. unfold identity. cbn. nra. }
  destruct (set_matrix new_covar m v) as (c & E & Em & Ec & _).
  { repeat constructor. } { discriminate. } { reflexivity. } { left. reflexivity. }
  change (Nat.eqb (total m) (rows v)) with true in Ec. cbv iota in Ec.
  destruct (C44_lookups m v c E) as (full & Ef & _ & _ & _ & L1 & _).
  rewrite Ec in Ef. injection Ef as <-.
  assert (N1 : names m 1 0 1). { exists (mkCp 1 [3; 1; 4] [true; true; true]). cbn. repeat split; lia. }
  destruct (L1 1%nat 0%nat 1%nat _ 1 N1 eq_refl eq_refl) as (V1 & _ & U1 & _).
  assert (F0 : Forall (fun k => (0 < npar m k)%nat) [0%nat]) by (constructor; [cbn; lia|constructor]).
  destruct (transform_exact fmt (pkg_deriv 2) (pkg_trans 2) m v c Pwa MuSigmaArea AllParts [0%nat] E eq_refl
     ltac:(repeat constructor; auto) F0) as (c' & full & full' & m' & Ef & Et & Ef' & R & C & Em' & Lm & Hm & H).
  rewrite Ec in Ef. injection Ef as <-.
  exists m, v, c, c', (1 / sigma2fwhm). split; [exact Vv|]. split; [exact E|]. split; [exact Et|]. split; [exact V1|].
  assert (SQ : sqrt (at_ v 1 1) = 1) by (cbn; apply sqrt_1).
  split; [rewrite U1, SQ; reflexivity|].
  assert (PM : pmap c' (0, 1)%nat = Some 1%nat).
  { destruct (fresh_maps m v c E) as (_ & _ & _ & _ & P1 & _). unfold Covariance.transform in Et. rewrite Ec, Em in Et.
    destruct (convert _ _ _ _ _ _ _ _) as [mm [gg|]]; [|discriminate]. injection Et as <-. cbn [pmap]. rewrite P1; [reflexivity|]. cbn. lia. }
  assert (Em0 : nth_error m' 0 = Some (mkCp 1 [3; 1 / sigma2fwhm; 4] [true; true; true])).
  { rewrite (Hm 0%nat (mkCp 1 [3; 1; 4] [true; true; true]) eq_refl). unfold converted. cbn [cp_fn cp_pars cp_free]. rewrite T. cbn [bind]. destruct (in_dec Nat.eq_dec 0%nat [0%nat]) as [|N]; [reflexivity|].
    exfalso. apply N. now left. }
  split. { unfold getvalue, locate. rewrite PM. cbn [bind]. rewrite Em'. cbn [fst snd]. rewrite (pyget_in _ _ _ Em0). reflexivity. }
  split; [field; lra|]. split.
  { intros Q. assert (1 / sigma2fwhm * sigma2fwhm = 1) by (field; lra). rewrite Q in H0. lra. }
  assert (A11 : at_ full' 1%nat 1%nat = 1).
  { assert (X1 : (1 < npar m 0)%nat) by (cbn; lia).
    pose proof (H 0%nat 0%nat _ _ 1%nat 1%nat eq_refl eq_refl X1 X1) as Q. change (offset m 0 + 1)%nat with 1%nat in Q. rewrite Q.
    cbn [npar nth_error m cp_npars length cp_pars rsum offset firstn total map fold_right Nat.add]. 
    unfold gradient, pkg_deriv. cbn [cp_fn cp_pars fmt_eqb]. rewrite T.
    destruct (in_dec Nat.eq_dec 0%nat [0%nat]) as [_|N]; [|exfalso; apply N; now left].
    unfold identity. cbn. lra. }
  unfold getuncertainty, locate, getcovariance, index_of. rewrite PM. cbn [bind option_map]. rewrite Ef', entry_in.
  - cbn [bind]. rewrite A11, sqrt_1. reflexivity.
  - rewrite R. cbn. lia.
  - rewrite C. cbn. lia.
Qed.
Print Assumptions C95_gaussian_refuted.

(** A model with two peaks and a baseline meeting the hypotheses of the propagation
    theorem. *)
Example C70_nonvacuous :
  let m := [mkCp 0 [3; 1/2; 4] [true; true; true]; mkCp 0 [5; 1/2; 1] [true; false; true]; mkCp 2 [1] [true]] in
  flags_ok m /\ Forall (fun p => (0 < length (cp_pars p))%nat) m /\
  (forall p, In p m -> (cp_fn p = 0%nat /\ exists t, to3 (cp_pars p) = Ok t /\ interior 1 Pwa t) \/ (2 <= cp_fn p)%nat) /\
  valid_cov (mkMat 6 6 identity) /\ exists c, setcovariance new_covar m (mkMat 6 6 identity) = (c, Ok tt).
Proof.
  cbn zeta. split; [repeat constructor|]. split; [repeat constructor|]. split.
  { intros p [<-|[<-|[<-|[]]]]; cbn [cp_fn cp_pars].
    - left. split; [reflexivity|]. eexists. split; [reflexivity|]. unfold interior. cbn. lra.
    - left. split; [reflexivity|]. eexists. split; [reflexivity|]. unfold interior. cbn. lra.
    - right. lia. }
  split.
  { split; [reflexivity|]. cbn [rows at_]. split.
    - intros a b _ _. unfold identity. now rewrite Nat.eqb_sym.
    - intros x. cbn [rsum]. unfold identity. cbn. nra. }
  eexists. reflexivity.
Qed.

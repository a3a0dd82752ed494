(** Property C158: which model the covariance returned by a fit describes.

    ModelParts.fit copies the fitted model into the covariance object (setcovariance,
    modelcluster.py:107, called at modelparts.py:223 with the list the optimiser worked on);
    ModelCluster.fit then sorts, cleans or undoes (1096-1141) its own model. *)
From Coq Require Import Permutation Sorted.
From Verif Require Import Prelude ModelCluster ModelClusterProofs ModelClusterProps.
Open Scope Z_scope.

Section S.
Context {P B Q : Type}.
Variable w : world P B Q.
Notation cluster := (cluster P B).

(** The model copied into [cov] by [fit(cov=cov)], modelcluster.py:1045-1084 and
    modelparts.py:97-110, 215-223: none if the optimiser is not called (no peaks, nothing
    free) or does not end normally; otherwise the peaks as the optimiser left them and, if
    the baseline was fitted too, the baseline after them. *)
Definition cov_model (c : cluster) (ntrials : nat) (fitbaseline estimate : bool) : option (list P * option B) :=
  if c_never c then None else
  match (match c_model c with
         | [] => if estimate then match estimatepeak w c with (c1, Ok _) => Some c1 | _ => None end else None
         | _ => Some c
         end) with
  | None => None
  | Some c1 =>
    let c2 := set_last c1 (c_size c1) in
    let fb := fitbaseline && match c_base c2 with None => false | Some b => (0 <? w_b_npars w false b)%nat end in
    let free := (model_npars w false (c_model c2) + (if fb then match c_base c2 with Some b => w_b_npars w false b | None => 0 end else 0))%nat in
    if (free =? 0)%nat then None else
    match w_engine w (c_model c2) (if fb then c_base c2 else None) c2 ntrials with
    | ((ps, ob), Ok _) => Some (ps, if fb then ob else None)
    | _ => None
    end
  end.

Lemma cov_raw c justify ntrials fitbaseline estimate ps ob q :
  cov_model c ntrials fitbaseline estimate = Some (ps, ob) -> fr_out (fit w c justify ntrials fitbaseline estimate) = Ok (Some q) ->
  fr_raw (fit w c justify ntrials fitbaseline estimate) = ps /\ (ob <> None -> c_base (fr_c (fit w c justify ntrials fitbaseline estimate)) = ob).
Proof.
  unfold cov_model, fit. destruct (c_never c); [discriminate|].
  destruct (match c_model c with [] => _ | _ :: _ => _ end) as [c1|] eqn:E; [|discriminate].
  assert (E2 : (match c_model c with
     | [] => if estimate then
               match estimatepeak w c with
               | (c1, Ok _) => (c1, None)
               | (c1, Err EstimationError) => (c1, Some (Ok (@None Q)))
               | (c1, Err e) => (c1, Some (Err e))
               end
             else (c, Some (Ok None))
     | _ => (c, None)
     end) = (c1, None)).
  { destruct (c_model c); [|congruence]. destruct estimate; [|discriminate]. destruct (estimatepeak w c) as [c2 [x|x]]; [congruence|discriminate]. }
  rewrite E2. cbv zeta. destruct (_ =? 0)%nat; [discriminate|]. set (fb := fitbaseline && _).
  destruct (w_engine w _ _ _ _) as [[ps' ob'] [u|x]]; [|discriminate]. intros [= <- <-].
  destruct (cleanfit w _ _ _) as [[ps2 n]|x]; [|discriminate]. destruct (w_qlt w _ _); [discriminate|].
  assert (K : ((if fb then ob' else None) <> None -> (if fb then ob' else c_base (set_last c1 (c_size c1))) = (if fb then ob' else None))) by (destruct fb; [reflexivity|intros H; contradiction]).
  destruct (justify && _ && _); [|intros _; cbn [fr_raw fr_c set_base c_base]; auto].
  destruct (min_npars w (c_pf c)); [|discriminate]. destruct (w_growth w _ _ _); [discriminate|]. intros _; cbn [fr_raw fr_c set_base c_base]; auto.
Qed.

Lemma sorted_filter (f : P -> bool) l : pos_sorted (w_position w) l -> pos_sorted (w_position w) (filter f l).
Proof.
  induction 1 as [|a l S IH F]; cbn; [constructor|]. destruct (f a); [|exact IH]. constructor; [exact IH|]. rewrite Forall_forall in *. intros x Hx. apply filter_In in Hx. now apply F.
Qed.
Lemma filter_perm (f : P -> bool) l : Permutation (filter f l ++ filter (fun a => negb (f a)) l) l.
Proof.
  induction l as [|a l IH]; [constructor|]. cbn. destruct (f a); cbn; [now constructor|]. rewrite <- Permutation_middle. now constructor.
Qed.
(** Strictly increasing positions: there is only one order. *)
Definition increasing_peaks (m : list P) : Prop :=
  StronglySorted (fun p q => match w_position w p, w_position w q with Some x, Some y => x < y | _, _ => False end) m /\ forall p, In p m -> w_position w p <> None.
Lemma one_order m m' : increasing_peaks m -> pos_sorted (w_position w) m' -> Permutation m' m -> m' = m.
Proof.
  intros (S1 & N). revert m' N. induction S1 as [|a l S1 IH F]; intros m' N S2 PM; [now apply Permutation_sym, Permutation_nil in PM|].
  destruct m' as [|b m']; [apply Permutation_nil in PM; discriminate|].
  rewrite Forall_forall in F. inversion S2 as [|? ? S3 F2]; subst. rewrite Forall_forall in F2.
  assert (b = a) as ->.
  { assert (Ia : In a (b :: m')) by (apply (Permutation_in a (Permutation_sym PM)); now left). assert (Ib : In b (a :: l)) by (apply (Permutation_in b PM); now left).
    destruct Ia as [|Ia]; [assumption|]. destruct Ib as [|Ib]; [now symmetry|]. specialize (F b Ib). specialize (F2 a Ia). destruct (w_position w a), (w_position w b); cbn in F2; try contradiction. apply Z.leb_le in F2. lia. }
  f_equal. apply IH; [intros p Hp; apply N; now right|exact S3|exact (Permutation_cons_inv PM)].
Qed.

(** ** C158 *)
(** After a fit that is kept, the covariance describes the cluster's peaks in the order they
    had before sorting, together with peaks that were removed after the fit; the baseline is
    the same.  It describes exactly the cluster's model if the optimiser kept the peaks in
    order, their positions are different and nothing is removed (C40 says what is). *)
Theorem C158_covariance_of_a_kept_fit_partial :
  argsort_ok (w_argsort w) -> (forall x, w_rnd w x < 0 <-> x < 0) ->
  forall c justify ntrials fitbaseline estimate q ps ob,
    let r := fit w c justify ntrials fitbaseline estimate in
    cov_model c ntrials fitbaseline estimate = Some (ps, ob) -> fr_out r = Ok (Some q) ->
    r_cluster c <> [] -> length (e_cluster c) = length (r_cluster c) -> (forall p, length (w_pvalue w p (r_cluster c)) = length (r_cluster c)) ->
    (exists removed, Permutation ps (c_model (fr_c r) ++ removed) /\ (forall p, In p removed -> dropped w (r_cluster c) (e_cluster c) p)) /\
    (ob <> None -> c_base (fr_c r) = ob) /\
    (increasing_peaks ps -> (forall p, In p ps -> ~ dropped w (r_cluster c) (e_cluster c) p) -> c_model (fr_c r) = ps).
Proof.
  intros AS RO c justify ntrials fbl est q ps ob r CM OUT NE LE LV.
  destruct (cov_raw c justify ntrials fbl est ps ob q CM OUT) as (RAW & BASE).
  destruct (C37_kept_model w AS c justify ntrials fbl est q OUT) as (sorted & n & PM & SO & CL). fold r in RAW, BASE, PM, CL. rewrite RAW in PM.
  destruct (C40_cleanfit_exact w RO sorted (r_cluster c) (e_cluster c) SO NE LE LV) as (keep & KD & CE). rewrite CE in CL. injection CL as CL _.
  split; [|split; [exact BASE|]].
  - exists (filter (fun p => negb (keep p)) sorted). rewrite <- CL. split; [rewrite (filter_perm keep sorted); now symmetry|]. intros p Hp. apply filter_In in Hp as (_ & Hp). apply KD. now apply negb_true_iff.
  - intros INC ND. rewrite <- CL.
    assert (FA : filter keep sorted = sorted).
    { assert (G : forall l, (forall p, In p l -> keep p = true) -> filter keep l = l) by (induction l as [|a l IH]; intros H; [reflexivity|]; cbn; rewrite (H a (or_introl eq_refl)); f_equal; apply IH; intros; apply H; now right).
      apply G. intros p Hp. destruct (keep p) eqn:K; [reflexivity|]. exfalso. apply (ND p); [now apply (Permutation_in p PM)|now apply KD]. }
    rewrite FA. now apply one_order.
Qed.

(** Refuted: if two peaks change places during the fit, or the optimiser leaves a peak that
    the clean-up removes, the covariance describes a different list of peaks than the
    cluster: part l of the one is not part l of the other. *)
Theorem C158_covariance_order_refuted :
  argsort_ok (w_argsort w) -> (forall x, w_rnd w x < 0 <-> x < 0) ->
  forall c justify ntrials fitbaseline estimate q ps ob,
    let r := fit w c justify ntrials fitbaseline estimate in
    cov_model c ntrials fitbaseline estimate = Some (ps, ob) -> fr_out r = Ok (Some q) ->
    r_cluster c <> [] -> length (e_cluster c) = length (r_cluster c) -> (forall p, length (w_pvalue w p (r_cluster c)) = length (r_cluster c)) ->
    ((exists l1 p l2 p' l3 x x', ps = l1 ++ p :: l2 ++ p' :: l3 /\ w_position w p = Some x /\ w_position w p' = Some x' /\ x' < x) \/
     (exists p, In p ps /\ dropped w (r_cluster c) (e_cluster c) p)) ->
    c_model (fr_c r) <> ps.
Proof.
  intros AS RO c justify ntrials fbl est q ps ob r CM OUT NE LE LV BAD.
  destruct (cov_raw c justify ntrials fbl est ps ob q CM OUT) as (RAW & _).
  destruct (C37_kept_model w AS c justify ntrials fbl est q OUT) as (sorted & n & PM & SO & CL). fold r in RAW, PM, CL. rewrite RAW in PM.
  destruct (C40_cleanfit_exact w RO sorted (r_cluster c) (e_cluster c) SO NE LE LV) as (keep & KD & CE). rewrite CE in CL. injection CL as CL _.
  intros EQ. rewrite <- CL in EQ. destruct BAD as [(l1 & p & l2 & p' & l3 & x & x' & -> & E1 & E2 & LT)|(p & Ip & D)].
  - pose proof (sorted_filter keep sorted SO) as SF. rewrite EQ in SF. clear - SF E1 E2 LT. induction l1 as [|a l1 IH]; cbn in SF.
    + inversion SF as [|? ? _ F]; subst. rewrite Forall_forall in F. specialize (F p' ltac:(apply in_or_app; right; now left)). rewrite E1, E2 in F. cbn in F. apply Z.leb_le in F. lia.
    + inversion SF; subst. now apply IH.
  - rewrite <- EQ in Ip. apply filter_In in Ip as (_ & K). apply KD in D. congruence.
Qed.
(** Refuted: after a fit that is undone because it did not improve the model, the covariance
    describes the rejected parameters, not those of the cluster. *)
Theorem C158_undone_fit_refuted :
  forall c justify ntrials fitbaseline estimate ps ob,
    c_never c = false -> c_model c <> [] ->
    cov_model c ntrials fitbaseline estimate = Some (ps, ob) ->
    fr_out (fit w c justify ntrials fitbaseline estimate) = Ok None ->
    let r := fit w c justify ntrials fitbaseline estimate in
    c_model (fr_c r) = c_model c /\ c_base (fr_c r) = c_base c /\
    exists base base', w_engine w (c_model c) base (set_last c (c_size c)) ntrials = ((ps, base'), Ok tt) /\ (ob <> None -> base' = ob).
Proof.
  intros c justify ntrials fbl est ps ob NV NE CM OUT r. subst r. unfold cov_model, fit in *. rewrite NV in *. destruct (c_model c) as [|p0 l0] eqn:M; [contradiction|].
  cbv zeta in *. destruct (_ =? 0)%nat; [discriminate|]. set (fb := fbl && _) in *.
  change (c_model (set_last c (c_size c))) with (c_model c) in *. rewrite M in *. change (c_base (set_last c (c_size c))) with (c_base c) in *.
  destruct (w_engine w _ _ _ _) as [[ps' ob'] [[]|x]] eqn:EN; [|discriminate]. injection CM as <- <-.
  assert (EX : exists base base', w_engine w (p0 :: l0) base (set_last c (c_size c)) ntrials = ((ps', base'), Ok tt) /\ ((if fb then ob' else None) <> None -> base' = (if fb then ob' else None))).
  { exists (if fb then c_base c else None), ob'. split; [exact EN|]. destruct fb; [reflexivity|contradiction]. }
  destruct (cleanfit w _ _ _) as [[ps2 n]|x]; [|discriminate]. destruct (w_qlt w _ _); [cbn [fr_c]; cbn [set_last c_model c_base]; auto|].
  destruct (justify && _ && _); [|discriminate].
  destruct (min_npars w (c_pf c)); [|discriminate]. destruct (w_growth w _ _ _); [cbn [fr_c]; cbn [set_last c_model c_base]; auto|discriminate].
Qed.
End S.
Print Assumptions C158_covariance_of_a_kept_fit_partial.
Print Assumptions C158_covariance_order_refuted.
Print Assumptions C158_undone_fit_refuted.

(** The peaks at 1 and 4 change places during the fit; the covariance lists them in the old
    order.  And a fit that makes things worse is undone, but the covariance keeps it. *)
Definition swap_positions : list xpeak -> option Z -> cluster xpeak Z -> nat -> (list xpeak * option Z) * result unit :=
  fun m b _ _ => (([xp 4 5 true; xp 1 6 true], b), Ok tt).
Definition xc2 : cluster xpeak Z := mkC [xp 1 5 true; xp 4 9 true] (Some 0) xr (mkArr 1 [0; 6; 0; 0; 5; 0]) xe 0 6 false 0 0 [7%nat].
Example C158_example :
  cov_model (xworld swap_positions) xc2 0 true true = Some ([xp 4 5 true; xp 1 6 true], Some 0) /\
  fr_out (fit (xworld swap_positions) xc2 false 0 true true) = Ok (Some 0) /\
  c_model (fr_c (fit (xworld swap_positions) xc2 false 0 true true)) = [xp 1 6 true; xp 4 5 true] /\
  cov_model (xworld (sethgt 50)) xc2 0 true true = Some ([xp 1 50 true; xp 4 50 true], Some 0) /\
  fr_out (fit (xworld (sethgt 50)) xc2 false 0 true true) = Ok None /\
  c_model (fr_c (fit (xworld (sethgt 50)) xc2 false 0 true true)) = [xp 1 5 true; xp 4 9 true].
Proof. repeat split; reflexivity. Qed.

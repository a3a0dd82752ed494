(** Property C66 (ModelCluster.augment), and reduce_to (C43). *)
From Coq Require Import Permutation Sorted.
From Verif Require Import Prelude ModelCluster ModelClusterProofs ModelClusterProps Prune PruneProofs PruneProps.
Open Scope Z_scope.

Section Props.
Context {P B Q L : Type}.
Variable w : world P B Q.
Variable qargmax : list Q -> nat.
Notation cluster := (cluster P B).
Variable lab : P -> L.
Notation tag m := (map (fun p : P => (lab p, w_removable w p)) m).

Lemma fit_est c justify nt : c_model c <> [] -> fit w c justify nt false true = fit w c justify nt false false.
Proof. intros H. unfold fit. destruct (c_never c); [reflexivity|]. destruct (c_model c); [contradiction|reflexivity]. Qed.

Hypothesis AS : argsort_ok (w_argsort w).
Hypothesis ES : engine_shape w lab.

(** The raw list keeps tags too. *)
Lemma fit_raw c justify nt : sig w lab (fr_raw (fit w c justify nt false false)) = sig w lab (c_model c).
Proof.
  unfold fit. destruct (c_never c); [reflexivity|]. destruct (c_model c) as [|p m] eqn:M; [cbn [fr_raw]; now rewrite M|]. cbn [andb].
  set (c2 := set_last c (c_size c)). change (c_model c2) with (c_model c).
  destruct (w_engine w (c_model c) None c2 nt) as [[ps ob] out] eqn:EE.
  pose proof (sig_engine w lab _ _ (ES _ _ _ _ _ _ _ EE)) as SG. rewrite M in SG.
  destruct out as [[]|e]; [|destruct e; exact SG].
  destruct (cleanfit w _ _ _) as [[ps2 n]|e]; [|exact SG]. destruct (w_qlt w _ _); [exact SG|].
  destruct (_ && _); [|exact SG]. destruct (min_npars w (c_pf c)); [|exact SG]. destruct (w_growth w _ _ _); exact SG.
Qed.
Lemma last_map {A C} (f : A -> C) l d : f (last l d) = last (map f l) (f d).
Proof. induction l as [|a l IH]; [reflexivity|]. destruct l; [reflexivity|]. cbn [last map] in *. exact IH. Qed.

Lemma try_sources_spec best srcs : forall c c' ms qs ss, try_sources w best srcs c = Ok (c', ms, qs, ss) ->
  length ms = length srcs /\ length qs = length srcs /\ sig w lab ss = sig w lab srcs /\
  (forall i s m, nth_error srcs i = Some s -> nth_error ms i = Some m -> kept w lab (engine_no_nan w) (best ++ [s]) m) /\
  ((srcs = [] /\ c' = c) \/ exists s, In s srcs /\ kept w lab (engine_no_nan w) (best ++ [s]) (c_model c')) /\ same_frame c c'.
Proof.
  induction srcs as [|s srcs IH]; intros c c' ms qs ss E; cbn [try_sources] in E.
  - injection E as <- <- <- <-. repeat (split; [reflexivity|]). split; [intros [|] ? ? [=]|]. split; [left; auto|repeat split].
  - set (c1 := set_model c (best ++ [s])) in E.
    assert (NE : c_model c1 <> []) by (unfold c1; cbn [set_model c_model]; destruct best; discriminate).
    rewrite fit_est in E by exact NE. set (f := fit w c1 false 0 false false) in E.
    destruct (fr_out f); [|discriminate]. destruct (try_sources w best srcs (fr_c f)) as [[[[c2 m2] q2] s2]|] eqn:E2; cbn [bind] in E; [|discriminate].
    injection E as <- <- <- <-. destruct (IH _ _ _ _ _ E2) as (H1 & H2 & H3 & H4 & H5 & H6).
    pose proof (fit_kept w lab AS ES c1 false 0) as [K1 K2]. fold f in K1, K2. change (c_model c1) with (best ++ [s]) in K1, K2.
    split; [cbn; lia|]. split; [cbn; lia|]. split; [|split; [|split]].
    + unfold sig in *. cbn [map]. rewrite H3. f_equal.
      pose proof (fit_raw c1 false 0) as R. fold f in R. change (c_model c1) with (best ++ [s]) in R.
      rewrite (last_map (fun p => (lab p, w_removable w p)) (fr_raw f) s).
      change (map _ (fr_raw f)) with (sig w lab (fr_raw f)). rewrite R. unfold sig. rewrite map_app. cbn [map]. apply last_last.
    + intros [|i] s' m; cbn [nth_error]; [intros [= <-] [= <-]; exact K2|apply H4].
    + right. destruct H5 as [[-> ->]|(s' & I & K)]; [exists s; split; [now left|exact K1]|exists s'; split; [now right|exact K]].
    + assert (F1 : same_frame c1 (fr_c f)) by (apply fit_frame; exact AS).
      unfold same_frame in *. unfold c1 in F1. cbn [set_model c_r c_y c_e c_start c_stop c_never c_em c_pf] in F1. intuition congruence.
Qed.

Lemma nth_split_perm {A} (l : list A) : forall i a, nth_error l i = Some a -> Permutation l (a :: del_at l i) /\ (length (del_at l i) < length l)%nat.
Proof.
  intros i a H. apply nth_error_split in H as (l1 & l2 & -> & <-). rewrite del_at_app by reflexivity. split.
  - symmetry. apply Permutation_middle.
  - rewrite !app_length. cbn. lia.
Qed.
Lemma del_at_map {A C} (f : A -> C) l i : map f (del_at l i) = del_at (map f l) i.
Proof. unfold del_at. now rewrite map_app, firstn_map, skipn_map. Qed.

(** The loop: best keeps what it had, gains only source peaks. *)
Lemma augment_loop_spec : forall fuel best srcs bq c best' c', augment_loop w qargmax fuel best srcs bq c = Some (Ok (best', c')) ->
  kept w lab False (best ++ srcs) best' /\
  (engine_no_nan w -> forall x, In x (sig w lab best) -> snd x = false -> In x (sig w lab best')) /\
  (c' = c \/ exists b s, kept w lab (engine_no_nan w) (b ++ [s]) (c_model c') /\
     (engine_no_nan w -> forall x, In x (sig w lab best) -> snd x = false -> In x (sig w lab b))) /\ same_frame c c'.
Proof.
  assert (KI : forall m m' x, kept w lab (engine_no_nan w) m m' -> engine_no_nan w -> In x (sig w lab m) -> snd x = false -> In x (sig w lab m')).
  { intros m m' x (rem & Pm & H) NN I Sx. rewrite Pm in I. apply in_app_or in I as [I|I]; [exact I|]. rewrite (H NN x I) in Sx. discriminate. }
  induction fuel as [|fuel IH]; intros best srcs bq c best' c' E; [discriminate|]. cbn [augment_loop] in E.
  destruct srcs as [|s0 srcs0] eqn:ESR.
  - injection E as <- <-. rewrite app_nil_r. split; [apply kept_refl|]. split; [auto|]. split; [now left|repeat split].
  - rewrite <- ESR in *. destruct (try_sources w best srcs c) as [[[[c1 ms] qs] ss]|] eqn:TS; [|discriminate].
    destruct (try_sources_spec _ _ _ _ _ _ _ TS) as (L1 & L2 & L3 & L4 & L5 & L6).
    destruct (nth_error qs (qargmax qs)) as [q|] eqn:NQ; [|discriminate].
    destruct (nth_error ms (qargmax qs)) as [m|] eqn:NM; [|discriminate].
    set (a := qargmax qs) in *.
    assert (exists s, nth_error srcs a = Some s) as [s NS].
    { destruct (nth_error srcs a) eqn:X; [eauto|]. exfalso. apply nth_error_None in X. assert (a < length ms)%nat by (apply nth_error_Some; congruence). lia. }
    pose proof (L4 _ _ _ NS NM) as KM.
    destruct (w_qlt w bq q).
    + destruct (IH _ _ _ _ _ _ E) as (H1 & H2 & H3 & H4).
      assert (P0 : Permutation (sig w lab srcs) ((lab s, w_removable w s) :: sig w lab (del_at ss a))).
      { unfold sig. rewrite del_at_map. change (map _ ss) with (sig w lab ss). rewrite L3. unfold sig. rewrite <- del_at_map.
        destruct (nth_split_perm srcs a s NS) as [PP _]. apply (Permutation_map (fun p => (lab p, w_removable w p))) in PP. exact PP. }
      split; [|split; [|split]].
      * eapply kept_trans; [|exact H1]. destruct KM as (rem & Pm & Hr). exists rem. split; [|intros []].
        unfold sig in *. rewrite !map_app in *. rewrite P0. cbn [map] in Pm.
        change ((lab s, w_removable w s) :: map (fun p => (lab p, w_removable w p)) (del_at ss a)) with ([(lab s, w_removable w s)] ++ map (fun p => (lab p, w_removable w p)) (del_at ss a)).
        rewrite app_assoc, Pm. rewrite <- !app_assoc. apply Permutation_app_head, Permutation_app_comm.
      * intros NN x I Sx. apply H2; auto. eapply KI; [exact KM|exact NN| |exact Sx]. unfold sig. rewrite map_app. apply in_or_app. now left.
      * right. destruct H3 as [->|(b & s' & K & HB)].
        -- destruct L5 as [[-> _]|(s' & _ & K)]; [discriminate|]. exists best, s'. split; [exact K|auto].
        -- exists b, s'. split; [exact K|]. intros NN x I Sx. apply HB; auto. eapply KI; [exact KM|exact NN| |exact Sx]. unfold sig. rewrite map_app. apply in_or_app. now left.
      * unfold same_frame in *. intuition congruence.
    + injection E as <- <-. split; [|split; [auto|split; [|exact L6]]].
      * exists (sig w lab srcs). split; [unfold sig; now rewrite map_app|intros []].
      * destruct L5 as [[-> ->]|(s' & _ & K)]; [now left|]. right. exists best, s'. split; [exact K|auto].
Qed.

Lemma augment_loop_fuel : forall fuel best srcs bq c, (length srcs < fuel)%nat -> augment_loop w qargmax fuel best srcs bq c <> None.
Proof.
  induction fuel as [|fuel IH]; intros best srcs bq c H; [lia|]. cbn [augment_loop]. destruct srcs as [|s0 srcs0] eqn:ESR; [discriminate|].
  rewrite <- ESR in *. destruct (try_sources w best srcs c) as [[[[c1 ms] qs] ss]|] eqn:TS; [|discriminate].
  destruct (try_sources_spec _ _ _ _ _ _ _ TS) as (L1 & L2 & L3 & L4 & L5 & L6).
  destruct (nth_error qs (qargmax qs)) as [q|] eqn:NQ; [|discriminate].
  destruct (nth_error ms (qargmax qs)) as [m|] eqn:NM; [|discriminate].
  destruct (w_qlt w bq q); [|discriminate]. apply IH.
  assert (length ss = length srcs) by (rewrite <- (sig_len w lab ss), L3, sig_len; reflexivity).
  assert (Ha : (qargmax qs < length ss)%nat) by (assert (qargmax qs < length qs)%nat by (apply nth_error_Some; congruence); lia).
  destruct (nth_error ss (qargmax qs)) as [z|] eqn:NZ; [|apply nth_error_None in NZ; lia].
  destruct (nth_split_perm ss _ _ NZ) as [_ LT]. lia.
Qed.

(** fit with estimation: the optimiser starts from the model, or from one estimated peak. *)
Lemma fit_kept_est c justify nt : exists c1,
  (c1 = c \/ (c_model c = [] /\ exists p, w_estimate w c = Ok (Some p) /\ c1 = set_model c [p])) /\
  kept w lab (engine_no_nan w) (c_model c1) (c_model (fr_c (fit w c justify nt false true))).
Proof.
  destruct (c_model c) as [|p0 m0] eqn:M.
  2:{ exists c. split; [now left|]. rewrite fit_est by (rewrite M; discriminate). rewrite M at 1. rewrite <- M at 1. apply (fit_kept w lab AS ES c justify nt). }
  unfold fit. destruct (c_never c); [exists c; split; [now left|]; cbn [fr_c]; apply kept_refl|]. rewrite M.
  destruct (estimatepeak w c) as [c1 o] eqn:EP.
  assert (HC : c1 = c \/ ([] = @nil P /\ exists p, w_estimate w c = Ok (Some p) /\ c1 = set_model c [p])).
  { unfold estimatepeak in EP. destruct (c_pf c); [injection EP as <- _; now left|].
    destruct (w_estimate w c) as [[p|]|]; try (injection EP as <- _; now left).
    rewrite M in EP. unfold replacepeaks in EP. cbn in EP. injection EP as <- _. right. split; [reflexivity|]. exists p. split; [reflexivity|].
    f_equal. apply Permutation_length_1_inv. symmetry. apply (sort_perm w AS). }
  clear EP. destruct HC as [->|(_ & p & EW & ->)].
  - (* nothing was estimated *)
    exists c. split; [now left|].
    destruct o as [b|e]; [|destruct e; cbn [fr_c]; apply kept_refl].
    cbn [andb]. set (c2 := set_last c (c_size c)). change (c_model c2) with (c_model c). rewrite M.
    destruct (w_engine w [] None c2 nt) as [[ps ob] out] eqn:EE. pose proof (ES _ _ _ _ _ _ _ EE) as F2. inversion F2; subst ps.
    assert (SN : sort_peaks w [] = []) by (apply Permutation_nil; symmetry; apply (sort_perm w AS)).
    destruct out as [[]|e]; [|destruct e; cbn [fr_c set_base set_model c_model]; try (change (c_model c2) with (c_model c); rewrite M); apply kept_refl].
    rewrite SN. destruct (cleanfit w [] _ _) as [[ps2 n]|e] eqn:CF; [|cbn [fr_c set_base set_model c_model]; apply kept_refl].
    assert (ps2 = []) as -> by (apply cleanfit_kept with (lab := lab) in CF; apply kept_len in CF; destruct ps2; [reflexivity|cbn in CF; lia]).
    destruct (w_qlt w _ _); [cbn [fr_c set_last c_model]; change (c_model c2) with (c_model c); rewrite M; apply kept_refl|].
    cbn [length Nat.eqb]. rewrite andb_false_r. cbn [andb fr_c set_base set_model c_model]. apply kept_refl.
  - exists (set_model c [p]). split; [right; split; [reflexivity|eauto]|].
    destruct o as [b|e]; [|destruct e; cbn [fr_c]; apply kept_refl].
    pose proof (fit_kept w lab AS ES (set_last (set_model c [p]) (c_last c)) justify nt) as K. cbv zeta in K. destruct K as [K _].
    cbn [andb]. set (c2 := set_last (set_model c [p]) (c_size (set_model c [p]))). change (c_model c2) with [p].
    destruct (w_engine w [p] None c2 nt) as [[ps ob] out] eqn:EE.
    pose proof (sig_engine w lab _ _ (ES _ _ _ _ _ _ _ EE)) as SG.
    assert (K0 : kept w lab (engine_no_nan w) [p] ps) by (apply kept_perm; now rewrite SG).
    change (c_model (set_model c [p])) with [p] in *.
    destruct out as [[]|e]; [|destruct e; cbn [fr_c set_base set_model c_model set_last]; first [exact K0|apply kept_refl]].
    assert (KS : kept w lab (engine_no_nan w) [p] (sort_peaks w ps)).
    { eapply kept_trans; [exact K0|]. apply kept_perm. apply Permutation_map. symmetry. apply (sort_perm w AS). }
    destruct (cleanfit w (sort_peaks w ps) (r_cluster c2) (e_cluster c2)) as [[ps2 n]|e] eqn:CF; [|exact KS].
    assert (K2 : kept w lab (engine_no_nan w) [p] ps2).
    { destruct (cleanfit_kept w lab _ _ _ _ _ CF) as (rem & Pm & H).
      eapply kept_trans; [exact KS|]. exists rem. split; [exact Pm|]. intros NN. apply H.
      intros q Hq. apply (NN _ _ _ _ _ _ EE). eapply Permutation_in; [apply (sort_perm w AS)|exact Hq]. }
    destruct (w_qlt w _ _); [apply kept_refl|]. destruct (_ && _); [|exact K2].
    destruct (min_npars w (c_pf c)); [|exact K2]. destruct (w_growth w _ _ _); [apply kept_refl|exact K2].
Qed.

Lemma replace_all (m new : list P) :
  replacepeaks w m new None (Some (Z.of_nat (length m))) =
  if existsb (fun p => negb (w_removable w p)) m then (m, Err ValueError) else (sort_peaks w new, Ok tt).
Proof.
  unfold replacepeaks.
  assert (SB : slice_bounds (length m) None (Some (Z.of_nat (length m))) = (0%nat, length m)).
  { unfold slice_bounds, clamp. destruct (Z.ltb_spec (Z.of_nat (length m)) 0); [lia|]. f_equal. rewrite Z.min_id, Nat2Z.id. cbn. lia. }
  rewrite SB. unfold slice. rewrite Nat.sub_0_r, skipn_O, firstn_all. destruct (existsb _ m); [reflexivity|].
  unfold assign_slice. cbn [firstn app]. rewrite skipn_all, app_nil_r. reflexivity.
Qed.

(** ** Augment always finishes; the result consists of own and source peaks. *)
(** [fuel] counts rounds: one more than the number of source peaks always suffices.  The
    second alternative: the fits dropped every peak, and the last one started from a newly
    estimated peak. *)
Theorem C66_terminates_with_own_and_source_peaks :
  forall (c source : cluster) fuel, (length (c_model source) < fuel)%nat ->
    exists c' out, augment w qargmax fuel c source = Some (c', out) /\
      (out = Ok tt ->
         (exists gone, Permutation (tag (c_model c) ++ tag (c_model source)) (tag (c_model c') ++ gone)) \/
         (exists c0 p, c_model c0 = [] /\ w_estimate w c0 = Ok (Some p) /\ (c_model c' = [] \/ tag (c_model c') = tag [p]))) /\
      (out = Ok tt -> same_frame c c').
Proof.
  intros c source fuel Hf. unfold augment.
  destruct (augment_loop w qargmax fuel _ _ _ c) as [[[best c1]|e]|] eqn:AL.
  3:{ exfalso. revert AL. apply augment_loop_fuel. exact Hf. }
  2:{ exists c, (Err e). split; [reflexivity|]. split; discriminate. }
  destruct (augment_loop_spec _ _ _ _ _ _ _ AL) as (H1 & _ & _ & H4).
  rewrite replace_all. destruct (existsb _ _); [eexists _, _; split; [reflexivity|]; split; discriminate|].
  set (c2 := set_model c1 (sort_peaks w best)). set (f := fit w c2 false 0 false true).
  eexists _, _. split; [reflexivity|]. split.
  - intros _. assert (KB : kept w lab False (c_model c ++ c_model source) (c_model c2)).
    { eapply kept_trans; [exact H1|]. apply kept_perm. apply Permutation_map. symmetry. apply (sort_perm w AS). }
    destruct (fit_kept_est c2 false 0) as (c3 & [->|(M & p & EW & ->)] & K).
    + left. assert (K' : kept w lab False (c_model c ++ c_model source) (c_model (fr_c f))).
      { eapply kept_trans; [exact KB|]. destruct K as (rem & Pm & _). exists rem. split; [exact Pm|intros []]. }
      destruct K' as (gone & Pm & _). exists gone. unfold sig in Pm. rewrite map_app in Pm. exact Pm.
    + right. exists c2, p. split; [exact M|]. split; [exact EW|].
      fold f in K. destruct K as (rem & Pm & _). cbn [set_model c_model] in Pm. unfold sig in Pm. cbn [map] in *.
      destruct (c_model (fr_c f)) as [|q [|q' m']]; [now left| |].
      * right. cbn [map] in *. apply Permutation_length_1_inv in Pm. cbn in Pm. congruence.
      * apply Permutation_length in Pm. cbn in Pm. lia.
  - intros _. assert (F : same_frame c2 (fr_c f)) by (apply fit_frame; exact AS).
    unfold same_frame in *. unfold c2 in F. cbn [set_model c_r c_y c_e c_start c_stop c_never c_em c_pf] in F. intuition congruence.
Qed.

(** ** augment can not be used on a cluster that has a protected peak. *)
Lemma protected_stays c srcs fuel best c1 : engine_no_nan w -> (exists p, In p (c_model c) /\ w_removable w p = false) ->
  augment_loop w qargmax fuel (c_model c) srcs (w_quality w c) c = Some (Ok (best, c1)) ->
  existsb (fun p => negb (w_removable w p)) (c_model c1) = true.
Proof.
  intros NN (p & Ip & Rp) AL. destruct (augment_loop_spec _ _ _ _ _ _ _ AL) as (_ & _ & H3 & _).
  assert (IS : In (lab p, w_removable w p) (sig w lab (c_model c))) by (unfold sig; apply in_map_iff; exists p; auto).
  assert (IC : In (lab p, w_removable w p) (sig w lab (c_model c1))).
  { destruct H3 as [->|(b & s & (rem & Pm & Hr) & HB)]; [exact IS|].
    specialize (HB NN _ IS Rp). assert (I2 : In (lab p, w_removable w p) (sig w lab (b ++ [s]))) by (unfold sig; rewrite map_app; apply in_or_app; now left).
    rewrite Pm in I2. apply in_app_or in I2 as [I2|I2]; [exact I2|]. apply (Hr NN) in I2. cbn in I2. congruence. }
  unfold sig in IC. apply in_map_iff in IC as (q & Eq & Iq). apply existsb_exists. exists q. split; [exact Iq|]. injection Eq as _ ->. now rewrite Rp.
Qed.

Theorem C93_protected_always_fails_refuted :
  engine_no_nan w ->
  forall (c source : cluster) fuel c' out, (exists p, In p (c_model c) /\ w_removable w p = false) ->
    augment w qargmax fuel c source = Some (c', out) -> out <> Ok tt.
Proof.
  intros NN c source fuel c' out HP E. unfold augment in E.
  destruct (augment_loop w qargmax fuel _ _ _ c) as [[[best c1]|e]|] eqn:AL; [|injection E as _ <-; discriminate|discriminate].
  rewrite replace_all, (protected_stays _ _ _ _ _ NN HP AL) in E. injection E as _ <-. discriminate.
Qed.

Lemma try_sources_ok (ET : engine_tame w) best : forall srcs c0, r_cluster c0 <> [] -> exists t, try_sources w best srcs c0 = Ok t.
Proof.
  induction srcs as [|s srcs IH]; intros c0 R0; cbn [try_sources]; [eexists; reflexivity|].
  rewrite fit_est by (cbn [set_model c_model]; destruct best; discriminate).
  destruct (fit_tame w (set_model c0 (best ++ [s])) 0 ET R0) as [o E]. rewrite E. set (f := fit w _ _ _ _ _).
  destruct (IH (fr_c f)) as [[[[a b] d] g] E2].
  { assert (F1 : same_frame (set_model c0 (best ++ [s])) (fr_c f)) by (apply fit_frame; exact AS).
    destruct F1 as (F1 & _ & _ & F4 & F5 & _). unfold r_cluster in *. rewrite F1, F4, F5. exact R0. }
  rewrite E2. cbn [bind]. eexists. reflexivity.
Qed.
Lemma augment_loop_ok (ET : engine_tame w) (AM : argmax_ok (w_qlt w) qargmax) : forall fuel best srcs bq c0, (length srcs < fuel)%nat -> r_cluster c0 <> [] ->
  exists t, augment_loop w qargmax fuel best srcs bq c0 = Some (Ok t).
Proof.
  induction fuel as [|fuel IH]; intros best srcs bq c0 H R0; [lia|]. cbn [augment_loop].
  destruct srcs as [|s0 srcs0] eqn:ESR; [eexists; reflexivity|]. rewrite <- ESR in *.
  assert (SN : srcs <> []) by (rewrite ESR; discriminate). clear s0 srcs0 ESR.
  destruct (try_sources_ok ET best srcs c0 R0) as [[[[c1 ms] qs] ss] TS]. rewrite TS.
  destruct (try_sources_spec _ _ _ _ _ _ _ TS) as (L1 & L2 & L3 & L4 & L5 & L6).
  assert (QN : qs <> []) by (intros ->; destruct srcs; [contradiction|discriminate]).
  destruct (AM qs QN) as (q & NQ & _). rewrite NQ.
  assert (Ha : (qargmax qs < length qs)%nat) by (apply nth_error_Some; congruence).
  destruct (nth_error ms (qargmax qs)) as [m|] eqn:NM; [|apply nth_error_None in NM; lia].
  destruct (w_qlt w bq q); [|eexists; reflexivity]. apply IH.
  - assert (length ss = length srcs) by (rewrite <- (sig_len w lab ss), L3, sig_len; reflexivity).
    destruct (nth_error ss (qargmax qs)) as [z|] eqn:NZ; [|apply nth_error_None in NZ; lia].
    destruct (nth_split_perm ss _ _ NZ) as [_ LT]. lia.
  - destruct L6 as (F1 & _ & _ & F4 & F5 & _). unfold r_cluster in *. rewrite F1, F4, F5. exact R0.
Qed.

(** With a well-behaved optimiser the failure is a ValueError. *)
Theorem C93_protected_valueerror_refuted :
  engine_no_nan w -> engine_tame w -> argmax_ok (w_qlt w) qargmax ->
  forall (c source : cluster) fuel, (length (c_model source) < fuel)%nat -> r_cluster c <> [] ->
    (exists p, In p (c_model c) /\ w_removable w p = false) ->
    exists c', augment w qargmax fuel c source = Some (c', Err ValueError).
Proof.
  intros NN ET AM c source fuel Hf RN HP.
  destruct (augment_loop_ok ET AM fuel (c_model c) (c_model source) (w_quality w c) c Hf RN) as [[best c1] E].
  unfold augment. rewrite E, replace_all, (protected_stays _ _ _ _ _ NN HP E). eexists. reflexivity.
Qed.

(** ** Without protected peaks it returns normally. *)
Lemma fit_tame_est c : engine_tame w -> r_cluster c <> [] -> c_pf c <> [] ->
  (forall c0 e, w_estimate w c0 = Err e -> e = EstimationError) ->
  forall X : Prop, (forall c0 n, snd (w_engine w [] None c0 n) = Ok tt \/ snd (w_engine w [] None c0 n) = Err FitError \/ (X /\ snd (w_engine w [] None c0 n) = Err ValueError)) ->
  (exists o, fr_out (fit w c false 0 false true) = Ok o) \/ (X /\ fr_out (fit w c false 0 false true) = Err ValueError).
Proof.
  intros ET RN PN EE X EN. destruct (c_model c) as [|p0 m0] eqn:M.
  2:{ left. rewrite fit_est by (rewrite M; discriminate). now apply fit_tame. }
  unfold fit. destruct (c_never c); [left; eexists; reflexivity|]. rewrite M.
  assert (TAIL : forall c1, r_cluster c1 = r_cluster c -> (c_model c1 = [] \/ exists p, c_model c1 = [p]) -> forall b : bool, forall f0,
    f0 = (match (c1, None) with | (c1, Some r) => mkFitRes c1 (c_model c1) (c_base c1) (c_model c1) r | (c1, None) =>
    let orig_qual := w_quality w c1 in
    let c2 := set_last c1 (c_size c1) in
    let fb := false && match c_base c2 with None => false | Some b => (0 <? w_b_npars w false b)%nat end in
    match w_engine w (c_model c2) (if fb then c_base c2 else None) c2 0%nat with
    | ((ps, ob), out) =>
      let bl' := if fb then ob else c_base c2 in
      match out with
      | Err FitError => mkFitRes c2 ps bl' ps (Ok None)
      | Err e => mkFitRes (set_base (set_model c2 ps) bl') ps bl' ps (Err e)
      | Ok _ =>
        let ps1 := sort_peaks w ps in
        match cleanfit w ps1 (r_cluster c2) (e_cluster c2) with
        | Err e => mkFitRes (set_base (set_model c2 ps1) bl') (if fb then ps else ps1) bl' ps (Err e)
        | Ok (ps2, _) =>
          let c3 := set_base (set_model c2 ps2) bl' in
          let keep := if fb then ps else ps2 in
          let new_qual := w_quality w c3 in
          if w_qlt w new_qual orig_qual then mkFitRes c2 keep bl' ps (Ok None)
          else if false && (length ps2 =? 1)%nat && (0 <? length (c_model c1))%nat then
            match min_npars w (c_pf c) with
            | Err e => mkFitRes c3 keep bl' ps (Err e)
            | Ok n => if w_growth w new_qual c3 n then mkFitRes c2 keep bl' ps (Ok None)
                      else mkFitRes c3 keep bl' ps (Ok (Some new_qual))
            end
          else mkFitRes c3 keep bl' ps (Ok (Some new_qual))
        end
      end
    end end) -> (exists o, fr_out f0 = Ok o) \/ (X /\ fr_out f0 = Err ValueError)).
  { intros c1 HR HM _ f0 ->. cbn [andb]. set (c2 := set_last c1 (c_size c1)). change (c_model c2) with (c_model c1).
    change (r_cluster c2) with (r_cluster c1). rewrite HR.
    destruct (w_engine w (c_model c1) None c2 0%nat) as [[ps ob] out] eqn:EW.
    assert (TM : out = Ok tt \/ out = Err FitError \/ (X /\ out = Err ValueError)).
    { destruct HM as [HM|[p HM]].
      - pose proof (EN c2 0%nat) as E2. rewrite HM in EW. rewrite EW in E2. exact E2.
      - destruct out as [[]|e]; [now left|right; left]. f_equal. eapply ET; [|exact EW]. rewrite HM. discriminate. }
    destruct TM as [->|[->|[HX ->]]]; [left|left; eexists; reflexivity|right; split; [exact HX|reflexivity]].
    unfold cleanfit, removed_indices. destruct (r_cluster c) as [|r0 rc]; [contradiction|]. cbn [bind].
    destruct (w_qlt w _ _); eexists; reflexivity. }
  unfold estimatepeak. destruct (c_pf c) as [|f0 pf0] eqn:PF; [contradiction|]. rewrite <- PF in *.
  destruct (w_estimate w c) as [[p|]|e] eqn:WE.
  - rewrite M. unfold replacepeaks. cbn [length]. cbn. eapply (TAIL (set_model c (sort_peaks w [p])) eq_refl); [|exact true|reflexivity].
    right. exists p. apply Permutation_length_1_inv. symmetry. apply (sort_perm w AS).
  - eapply (TAIL c eq_refl); [now left|exact true|reflexivity].
  - apply EE in WE. subst e. left. eexists. reflexivity.
Qed.

Theorem C66_return_or_valueerror :
  engine_tame w -> argmax_ok (w_qlt w) qargmax ->
  (* the estimator fails with SrMiseEstimationError only; the optimiser may refuse an empty
     model with a ValueError, if X *)
  (forall c0 e, w_estimate w c0 = Err e -> e = EstimationError) ->
  forall X : Prop,
  (forall c0 n, snd (w_engine w [] None c0 n) = Ok tt \/ snd (w_engine w [] None c0 n) = Err FitError \/ (X /\ snd (w_engine w [] None c0 n) = Err ValueError)) ->
  forall (c source : cluster) fuel, (length (c_model source) < fuel)%nat -> r_cluster c <> [] -> c_pf c <> [] ->
    (forall p, In p (c_model c) \/ In p (c_model source) -> w_removable w p = true) ->
    exists c', augment w qargmax fuel c source = Some (c', Ok tt) \/ (X /\ augment w qargmax fuel c source = Some (c', Err ValueError)).
Proof.
  intros ET AM EE X EN c source fuel Hf RN PN AR.
  destruct (augment_loop_ok ET AM fuel (c_model c) (c_model source) (w_quality w c) c Hf RN) as [[best c1] E].
  unfold augment. rewrite E, replace_all.
  (* the model of the last trial consists of removable peaks *)
  assert (AR1 : forall fuel best0 srcs bq c0 best' c', augment_loop w qargmax fuel best0 srcs bq c0 = Some (Ok (best', c')) ->
      (forall x, In x (sig w lab best0) \/ In x (sig w lab srcs) -> snd x = true) -> (forall x, In x (sig w lab (c_model c0)) -> snd x = true) ->
      forall x, In x (sig w lab (c_model c')) -> snd x = true).
  { clear - AS ES. induction fuel as [|fuel IH]; intros best0 srcs bq c0 best' c' E A1 A2; [discriminate|]. cbn [augment_loop] in E.
    destruct srcs as [|s0 srcs0] eqn:ESR; [injection E as _ <-; exact A2|]. rewrite <- ESR in *.
    destruct (try_sources w best0 srcs c0) as [[[[c1 ms] qs] ss]|] eqn:TS; [|discriminate].
    destruct (try_sources_spec _ _ _ _ _ _ _ TS) as (L1 & L2 & L3 & L4 & L5 & L6).
    destruct (nth_error qs (qargmax qs)) as [q|] eqn:NQ; [|discriminate].
    destruct (nth_error ms (qargmax qs)) as [m|] eqn:NM; [|discriminate].
    assert (KI : forall s m', In s srcs -> kept w lab (engine_no_nan w) (best0 ++ [s]) m' -> forall x, In x (sig w lab m') -> snd x = true).
    { intros s m' Is (rem & Pm & _) x Hx. assert (I : In x (sig w lab (best0 ++ [s]))) by (rewrite Pm; apply in_or_app; now left).
      unfold sig in I. rewrite map_app in I. apply in_app_or in I as [I|[<-|[]]]; apply A1; [now left|right]. unfold sig. now apply (in_map (fun p => (lab p, w_removable w p))). }
    assert (A3 : forall x, In x (sig w lab (c_model c1)) -> snd x = true).
    { destruct L5 as [[-> _]|(s & Is & K)]; [discriminate|]. exact (KI s _ Is K). }
    destruct (w_qlt w bq q); [|injection E as _ <-; exact A3].
    apply (IH _ _ _ _ _ _ E); [|exact A3]. intros x [Hx|Hx].
    - destruct (nth_error srcs (qargmax qs)) as [s|] eqn:NS.
      + apply (KI s m); [eapply nth_error_In; exact NS|exact (L4 _ _ _ NS NM)|exact Hx].
      + exfalso. apply nth_error_None in NS. assert (qargmax qs < length ms)%nat by (apply nth_error_Some; congruence). lia.
    - apply A1. right. rewrite <- L3. unfold sig in *. rewrite del_at_map in Hx. unfold del_at in Hx.
      rewrite <- (firstn_skipn (qargmax qs) (map _ ss)). apply in_or_app. apply in_app_or in Hx as [Hx|Hx]; [now left|right].
      clear - Hx. revert Hx. generalize (map (fun p : P => (lab p, w_removable w p)) ss) as l. generalize (qargmax qs) as n.
      induction n as [|n IH]; intros [|y l] Hx; cbn [skipn] in *; [destruct Hx|right; exact Hx|destruct Hx|apply IH; exact Hx]. }
  assert (AX : existsb (fun p => negb (w_removable w p)) (c_model c1) = false).
  { destruct (existsb _ (c_model c1)) eqn:EX; [|reflexivity]. exfalso. apply existsb_exists in EX as (p & Ip & Np).
    assert (SP : snd (lab p, w_removable w p) = true).
    { apply (AR1 _ _ _ _ _ _ _ E).
      - intros x [Hx|Hx]; unfold sig in Hx; apply in_map_iff in Hx as (q & <- & Iq); apply AR; auto.
      - intros x Hx; unfold sig in Hx; apply in_map_iff in Hx as (q & <- & Iq); apply AR; auto.
      - unfold sig. apply (in_map (fun p => (lab p, w_removable w p))). exact Ip. }
    cbn in SP. rewrite SP in Np. discriminate. }
  rewrite AX. destruct (augment_loop_spec _ _ _ _ _ _ _ E) as (_ & _ & _ & H4). destruct H4 as (F1 & _ & _ & F4 & F5 & _ & _ & F8).
  destruct (fit_tame_est (set_model c1 (sort_peaks w best)) ET) with (X := X) as [[o EO]|[HX EO]].
  - unfold r_cluster in *. cbn [set_model c_r c_start c_stop]. rewrite F1, F4, F5. exact RN.
  - cbn [set_model c_pf]. rewrite F8. exact PN.
  - exact EE.
  - exact EN.
  - rewrite EO. eexists. left. reflexivity.
  - rewrite EO. eexists. right. split; [exact HX|reflexivity].
Qed.
Theorem C66_normal_return :
  engine_tame w -> argmax_ok (w_qlt w) qargmax ->
  (* the estimator fails with SrMiseEstimationError only, the optimiser accepts an empty model *)
  (forall c0 e, w_estimate w c0 = Err e -> e = EstimationError) ->
  (forall c0 n, snd (w_engine w [] None c0 n) = Ok tt \/ snd (w_engine w [] None c0 n) = Err FitError) ->
  forall (c source : cluster) fuel, (length (c_model source) < fuel)%nat -> r_cluster c <> [] -> c_pf c <> [] ->
    (forall p, In p (c_model c) \/ In p (c_model source) -> w_removable w p = true) ->
    exists c', augment w qargmax fuel c source = Some (c', Ok tt).
Proof.
  intros ET AM EE EN c source fuel Hf RN PN AR.
  destruct (C66_return_or_valueerror ET AM EE False) with (c := c) (source := source) (fuel := fuel) as (c' & [E|[[] _]]); eauto.
  intros c0 n. destruct (EN c0 n); auto.
Qed.

(** ** Augment never makes the model worse -- provided no fit is undone. *)
Theorem C111_augment_never_worse :
  argmax_ok (w_qlt w) qargmax ->
  (* the statistic depends on data, baseline and the peaks, whatever their order *)
  (forall c1 c2 : cluster, same_frame c1 c2 -> c_base c1 = c_base c2 -> Permutation (c_model c1) (c_model c2) -> w_quality w c1 = w_quality w c2) ->
  (* comparison of evaluators is a strict weak order *)
  (forall a b, w_qlt w a b = true -> w_qlt w b a = false) ->
  (forall a b d, w_qlt w a b = true -> w_qlt w d b = false -> w_qlt w a d = true) ->
  forall (c source : cluster) fuel c',
    (* the list given to a fit holds the resulting model: no fit was undone, and no fit
       drops every peak *)
    (forall c0, same_frame c c0 -> c_model c0 <> [] ->
       fr_list (fit w c0 false 0 false false) = c_model (fr_c (fit w c0 false 0 false false)) /\
       c_model (fr_c (fit w c0 false 0 false false)) <> []) ->
    c_model c <> [] ->
    augment w qargmax fuel c source = Some (c', Ok tt) ->
    w_qlt w (w_quality w c') (w_quality w c) = false.
Proof.
  intros AM QE ASY QT c source fuel c' NR NE E.
  assert (IRR : forall a, w_qlt w a a = false) by (intros a; destruct (w_qlt w a a) eqn:X; [pose proof (ASY _ _ X); congruence|reflexivity]).
  set (qual := fun m => w_quality w (set_model c m)).
  set (good := fun c0 : cluster => same_frame c c0 /\ c_base c0 = c_base c).
  assert (QG : forall c0, good c0 -> w_quality w c0 = qual (c_model c0)).
  { intros c0 [G1 G2]. unfold qual. apply QE; [|cbn [set_model c_base]; congruence|reflexivity].
    unfold same_frame in *. cbn [set_model c_r c_y c_e c_start c_stop c_never c_em c_pf]. intuition congruence. }
  assert (GS : forall c0 m, good c0 -> good (set_model c0 m)) by (intros c0 m G; exact G).
  assert (GF : forall c0, good c0 -> c_model c0 <> [] -> good (fr_c (fit w c0 false 0 false false))).
  { intros c0 [G1 G2] _. pose proof (fit_frame w AS c0 false 0 false false) as FF.
    split; [unfold same_frame in *; intuition congruence|]. rewrite <- G2. clear. unfold fit. destruct (c_never c0); [reflexivity|].
    destruct (c_model c0) eqn:M; [reflexivity|]. cbn [andb].
    destruct (w_engine w _ _ _ _) as [[ps ob] o]. destruct o as [[]|e]; [|destruct e; reflexivity].
    destruct (cleanfit w _ _ _) as [[ps2 n]|]; [|reflexivity]. destruct (w_qlt w _ _); reflexivity. }
  assert (TS : forall best srcs c0 c1 ms qs ss, good c0 -> try_sources w best srcs c0 = Ok (c1, ms, qs, ss) ->
     good c1 /\ forall i q m, nth_error qs i = Some q -> nth_error ms i = Some m -> q = qual m /\ m <> []).
  { intros best. induction srcs as [|s srcs IH]; intros c0 c1 ms qs ss G T; cbn [try_sources] in T.
    - injection T as <- <- <- <-. split; [exact G|]. intros [|i] q m [=].
    - assert (NB : c_model (set_model c0 (best ++ [s])) <> []) by (cbn [set_model c_model]; destruct best; discriminate).
      rewrite fit_est in T by exact NB. set (cb := set_model c0 (best ++ [s])) in *.
      assert (GB : good cb) by (apply GS; exact G).
      pose proof (GF cb GB NB) as G1. destruct (NR cb (proj1 GB) NB) as [N1 N2]. set (f := fit w cb false 0 false false) in *.
      destruct (fr_out f); [|discriminate]. destruct (try_sources w best srcs (fr_c f)) as [[[[c2 m2] q2] s2]|] eqn:T2; cbn [bind] in T; [|discriminate].
      injection T as <- <- <- <-. destruct (IH _ _ _ _ _ G1 T2) as [G2 H2]. split; [exact G2|].
      intros [|i] q m; cbn [nth_error]; [|apply H2]. intros [= <-] [= <-]. rewrite N1. split; [now apply QG|exact N2]. }
  assert (LP : forall fuel best srcs c0 best' c1, good c0 -> augment_loop w qargmax fuel best srcs (qual best) c0 = Some (Ok (best', c1)) ->
     good c1 /\ (best' = best \/ (w_qlt w (qual best) (qual best') = true /\ best' <> []))).
  { clear E fuel. induction fuel as [|fuel IH]; intros best srcs c0 best' c1 G L0; [discriminate|]. cbn [augment_loop] in L0.
    destruct srcs as [|s0 srcs0] eqn:ESR; [injection L0 as <- <-; auto|]. rewrite <- ESR in *.
    destruct (try_sources w best srcs c0) as [[[[c2 ms] qs] ss]|] eqn:T; [|discriminate].
    destruct (TS _ _ _ _ _ _ _ G T) as [G2 H2].
    destruct (nth_error qs (qargmax qs)) as [q|] eqn:NQ; [|discriminate].
    destruct (nth_error ms (qargmax qs)) as [m|] eqn:NM; [|discriminate].
    destruct (H2 _ _ _ NQ NM) as [-> NM0].
    destruct (w_qlt w (qual best) (qual m)) eqn:QL; [|injection L0 as <- <-; auto].
    destruct (IH _ _ _ _ _ G2 L0) as [G3 H3]. split; [exact G3|]. right.
    destruct H3 as [->|[H3 H4]]; [auto|]. split; [|exact H4]. eapply QT; [exact QL|]. now apply ASY. }
  unfold augment in E.
  assert (GC : good c) by (repeat split).
  assert (QC : w_quality w c = qual (c_model c)) by (now apply QG).
  rewrite QC in E. destruct (augment_loop w qargmax fuel _ _ _ c) as [[[best c1]|e]|] eqn:AL; [|discriminate|discriminate].
  destruct (LP _ _ _ _ _ _ GC AL) as [G1 HB].
  rewrite replace_all in E. destruct (existsb _ _); [discriminate|].
  set (c2 := set_model c1 (sort_peaks w best)) in *. set (f := fit w c2 false 0 false true) in *.
  assert (G2 : good c2) by (apply GS; exact G1).
  assert (Q2 : w_quality w c2 = qual best).
  { rewrite QG by exact G2. unfold qual. apply QE; [repeat split|reflexivity|]. cbn [set_model c_model]. apply (sort_perm w AS). }
  destruct (c_model c2) as [|p0 m0] eqn:M2.
  - (* nothing to fit: impossible *)
    assert (BN : best = []).
    { apply Permutation_nil. rewrite <- M2. unfold c2. cbn [set_model c_model]. apply (sort_perm w AS). }
    destruct HB as [HB|[_ HB]]; [|contradiction]. exfalso.
    congruence.
  - assert (M2N : c_model c2 <> []) by (rewrite M2; discriminate). clear M2 p0 m0.
    unfold f in *. rewrite fit_est in E by exact M2N. injection E as E1 E2.
    pose proof (GF c2 G2 M2N) as G3.
    pose proof (C37_fit_never_worse w AS c2 false 0 false false) as CF. cbv zeta in CF. destruct CF as (_ & c3 & HC & HO).
    destruct HC as [->|(M0 & _)]; [|contradiction].
    assert (NW : w_qlt w (w_quality w (fr_c (fit w c2 false 0 false false))) (qual best) = false).
    { destruct (fr_out (fit w c2 false 0 false false)) as [[q|]|e]; [| |discriminate].
      - destruct HO as (<- & HQ & _). now rewrite <- Q2.
      - destruct HO as [HM HBs]. rewrite <- Q2. rewrite (QE (fr_c (fit w c2 false 0 false false)) c2); [apply IRR| |exact HBs|rewrite HM; reflexivity].
        pose proof (fit_frame w AS c2 false 0 false false) as FF. unfold same_frame in *. intuition congruence. }
    subst c'. rewrite QC. destruct HB as [->|[HB _]]; [exact NW|]. apply ASY. eapply QT; [exact HB|exact NW].
Qed.

(** ** reduce_to: an answer of None means that nothing changed. *)
(** [below] is the outcome of the test model(x) < y, [matching] the effect of match_at on
    the peaks. *)
Theorem C43_reduce_to_all_or_nothing :
  forall (c : cluster) (below : bool) (matching : list P -> list P) c' out,
    reduce_to w c below matching = (c', out) ->
    (out = Ok None -> c_model c' = c_model c /\ c_base c' = c_base c /\ same_frame c c') /\
    (forall q, out = Ok (Some q) ->
       below = false /\ q = w_quality w c' /\ c_base c' = c_base c /\ same_frame c c' /\
       (* not worse than the matched model, and room for hidden peaks is not justified *)
       (matching (c_model c) <> [] -> w_qlt w q (w_quality w (set_model c (matching (c_model c)))) = false) /\
       exists n, min_npars w (c_pf c) = Ok n /\ w_growth w q c' n = false).
Proof.
  intros c below matching c' out E. unfold reduce_to in E. destruct below.
  { injection E as <- <-. split; [intros _; repeat split|discriminate]. }
  set (c1 := set_model c (matching (c_model c))) in *.
  pose proof (C37_fit_never_worse w AS c1 false 0 false true) as CF. cbv zeta in CF. set (f := fit w c1 false 0 false true) in *.
  destruct CF as (FR & c2 & HC & HO).
  assert (SF : same_frame c (fr_c f)) by exact FR.
  assert (BC : c_base c2 = c_base c) by (destruct HC as [->|(_ & p & _ & ->)]; reflexivity).
  destruct (fr_out f) as [[q|]|e].
  - destruct HO as (Eq & HQ & HB & _). specialize (HB eq_refl). change (c_base c1) with (c_base c) in HB.
    destruct (min_npars w (c_pf c)) as [n|e] eqn:MN; [|injection E as <- <-; split; discriminate].
    destruct (w_growth w q (fr_c f) n) eqn:G; injection E as <- <-.
    + split; [|discriminate]. intros _. split; [reflexivity|]. split; [exact HB|exact SF].
    + split; [discriminate|]. intros q' [= <-]. split; [reflexivity|]. split; [exact Eq|]. split; [exact HB|]. split; [exact SF|]. split.
      * intros NE. destruct HC as [->|(M & _)]; [exact HQ|contradiction].
      * exists n. auto.
  - injection E as <- <-. split; [|discriminate]. intros _. destruct HO as [_ HB]. split; [reflexivity|]. split; [cbn [set_model c_base]; congruence|exact SF].
  - injection E as <- <-. split; discriminate.
Qed.
End Props.
Print Assumptions C66_terminates_with_own_and_source_peaks.
Print Assumptions C93_protected_always_fails_refuted.
Print Assumptions C93_protected_valueerror_refuted.
Print Assumptions C66_return_or_valueerror.
Print Assumptions C66_normal_return.
Print Assumptions C111_augment_never_worse.
Print Assumptions C43_reduce_to_all_or_nothing.

(** ** The hypotheses are met. *)
(** The useful source peak is taken, the useless ones are not. *)
Definition ac (m : list xpeak) : cluster xpeak Z := mkC m None ygrid (mkArr 1 [0; 0; 9; 0; 8; 0]) yerr 0 6 false 0 0 [7%nat].
Example C66_nonvacuous :
  augment (yworld nan0 idle) zargmax 4 (ac [xp 2 9 true]) (ac [xp 1 2 true; xp 4 8 true; xp 5 7 true]) =
    Some (mkC [xp 2 9 true; xp 4 8 true] None ygrid (mkArr 1 [0; 0; 9; 0; 8; 0]) yerr 0 6 false 6 0 [7%nat], Ok tt) /\
  w_quality (yworld nan0 idle) (ac [xp 2 9 true]) = -11 /\ w_quality (yworld nan0 idle) (ac [xp 2 9 true; xp 4 8 true]) = -6 /\
  argsort_ok (w_argsort (yworld nan0 idle)) /\ engine_shape (yworld nan0 idle) (@snd (option Z * Z) bool) /\ engine_tame (yworld nan0 idle) /\
  argmax_ok (w_qlt (yworld nan0 idle)) zargmax /\ (forall c0 e, w_estimate (yworld nan0 idle) c0 = Err e -> e = EstimationError) /\
  r_cluster (ac [xp 2 9 true]) <> [].
Proof.
  split; [vm_compute; reflexivity|]. split; [vm_compute; reflexivity|]. split; [vm_compute; reflexivity|].
  split; [exact isort_ok|]. split; [apply y_shape|]. split; [intros m b c n ps b' e _ E; discriminate|]. split; [exact zargmax_ok|].
  split; [discriminate|vm_compute; discriminate].
Qed.
(** One protected peak, and augment fails; the model left behind is that of the last
    trial (with the useless source peak), not the original one. *)
Example C66_protected_example :
  augment (yworld (fun _ => false) idle) zargmax 4 (ac [xp 2 9 false]) (ac [xp 4 8 true; xp 5 7 true]) =
    Some (mkC [xp 2 9 false; xp 4 8 true; xp 5 7 true] None ygrid (mkArr 1 [0; 0; 9; 0; 8; 0]) yerr 0 6 false 6 0 [7%nat], Err ValueError) /\
  engine_no_nan (yworld (fun _ => false) idle).
Proof. split; [vm_compute; reflexivity|]. intros m b c n ps b' _ p _. reflexivity. Qed.
(** Hypotheses of the quality theorem: as for prune, with silent uncertainties. *)
Definition az (m : list xpeak) : cluster xpeak Z :=
  mkC m None ygrid (mkArr 1 [0; 0; 9; 0; 8; 0]) (mkArr 2 [0; 0; 0; 0; 0; 0]) 0 6 false 0 0 [7%nat].
Lemma zquality_perm (c1 c2 : cluster xpeak Z) : same_frame c1 c2 -> c_base c1 = c_base c2 -> Permutation (c_model c1) (c_model c2) ->
  w_quality zworld c1 = w_quality zworld c2.
Proof.
  intros (F1 & F2 & F3 & F4 & F5 & _) HB PP. change (w_quality zworld) with (fun c => zqk c 0). cbv beta. unfold zqk, residual, e_cluster, y_cluster, r_cluster.
  rewrite F1, F2, F3, F4, F5, HB. rewrite (vsum_perm _ _ _ PP). apply Permutation_length in PP.
  assert (G : forall a b : list xpeak, length a = length b -> model_npars zw0 false a = model_npars zw0 false b).
  { clear. unfold model_npars. induction a as [|x a IH]; intros [|y b] H; try discriminate; [reflexivity|]. cbn. do 3 f_equal. apply IH. now injection H. }
  rewrite (G _ _ PP). reflexivity.
Qed.
Example C66_nonvacuous_quality :
  (forall c1 c2 : cluster xpeak Z, same_frame c1 c2 -> c_base c1 = c_base c2 -> Permutation (c_model c1) (c_model c2) -> w_quality zworld c1 = w_quality zworld c2) /\
  (forall c0, same_frame (az [xp 2 9 true]) c0 -> c_model c0 <> [] ->
       fr_list (fit zworld c0 false 0 false false) = c_model (fr_c (fit zworld c0 false 0 false false)) /\
       c_model (fr_c (fit zworld c0 false 0 false false)) <> []) /\
  exists c', augment zworld zargmax 4 (az [xp 2 9 true]) (az [xp 1 2 true; xp 4 8 true]) = Some (c', Ok tt) /\
    c_model c' = [xp 2 9 true; xp 4 8 true].
Proof.
  split; [exact zquality_perm|]. split; [|eexists; split; [vm_compute; reflexivity|reflexivity]].
  intros c0 (F1 & F2 & F3 & F4 & F5 & _) NE.
  assert (HR : r_cluster c0 = [0; 1; 2; 3; 4; 5]) by (unfold r_cluster; rewrite F1, F4, F5; reflexivity).
  assert (HE : e_cluster c0 = [0; 0; 0; 0; 0; 0]) by (unfold e_cluster; rewrite F3, F4, F5; reflexivity).
  split; [exact (proj1 (proj2 (proj2 (proj2 (proj2 (proj2 C42_nonvacuous_quality))))) c0 0%nat HR HE)|].

  unfold fit. destruct (c_never c0); [exact NE|]. destruct (c_model c0) as [|p m] eqn:M; [contradiction|]. cbn [andb].
  set (c2 := set_last c0 (c_size c0)). change (w_engine zworld) with idle. unfold idle.
  change (r_cluster c2) with (r_cluster c0). change (e_cluster c2) with (e_cluster c0). rewrite HR, HE, z_clean.
  change (c_model c2) with (c_model c0).
  destruct (w_qlt _ _ _); cbn [fr_c set_base set_model c_model]; [change (c_model c2) with (c_model c0); rewrite M; discriminate|].
  intros X. pose proof (sort_perm zworld isort_ok (c_model c0)) as PP. rewrite X in PP. apply Permutation_nil in PP. congruence.
Qed.
(** reduce_to: a kept and a rejected reduction. *)
Example C43_reduce_to_nonvacuous :
  let halve := map (fun p : xpeak => (fst (fst p), snd (fst p) / 2, snd p)) in
  (exists c', reduce_to (yworld nan0 idle) (ac [xp 2 18 true]) false halve = (c', Ok (Some (-11))) /\ c_model c' = [xp 2 9 true]) /\
  snd (reduce_to (yworld nan0 gives_up) (ac [xp 2 18 true]) true halve) = Ok None.
Proof. cbv zeta. split; [eexists; split; [vm_compute; reflexivity|reflexivity]|reflexivity]. Qed.

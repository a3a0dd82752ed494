(** Lemmas about fit without estimation, and about prune and augment. *)
From Coq Require Import Permutation Sorted.
From Verif Require Import Prelude ModelCluster ModelClusterProofs ModelClusterProps Prune.
Open Scope Z_scope.

(** [qargmax] points at an element than which no other is greater. *)
Definition argmax_ok {Q} (qlt : Q -> Q -> bool) (f : list Q -> nat) : Prop :=
  forall l, l <> [] -> exists q, nth_error l (f l) = Some q /\ forall q', In q' l -> qlt q q' = false.

Section Proofs.
Context {P B Q L : Type}.
Variable w : world P B Q.
Variable qk : cluster P B -> nat -> Q.
Variable qargmax : list Q -> nat.
Notation cluster := (cluster P B).
(** An identity of a peak that the optimiser does not change (its place in the list the
    user built, or the object itself). *)
Variable lab : P -> L.

(** The optimiser changes parameters only: same peaks, same order, same flags. *)
Definition engine_shape : Prop :=
  forall m b c n ps b' out, w_engine w m b c n = ((ps, b'), out) ->
    Forall2 (fun p q => lab q = lab p /\ w_removable w q = w_removable w p) m ps.
(** The optimiser never leaves a NaN parameter in a successful fit. *)
Definition engine_no_nan : Prop :=
  forall m b c n ps b', w_engine w m b c n = ((ps, b'), Ok tt) -> forall p, In p ps -> w_has_nan w p = false.
(** The optimiser raises nothing but SrMiseFitError. *)
Definition engine_tame : Prop :=
  forall m b c n ps b' e, m <> [] -> w_engine w m b c n = ((ps, b'), Err e) -> e = FitError.

Definition sig (m : list P) : list (L * bool) := map (fun p => (lab p, w_removable w p)) m.
(** m' has the peaks of m except [rem]; with [strict] only removable ones are missing. *)
Definition kept (strict : Prop) (m m' : list P) : Prop :=
  exists rem, Permutation (sig m) (sig m' ++ rem) /\ (strict -> forall x, In x rem -> snd x = true).

Lemma sig_len m : length (sig m) = length m. Proof. apply map_length. Qed.
Lemma kept_refl s m : kept s m m.
Proof. exists []. rewrite app_nil_r. split; [reflexivity|intros _ x []]. Qed.
Lemma kept_trans (s : Prop) m1 m2 m3 : kept s m1 m2 -> kept s m2 m3 -> kept s m1 m3.
Proof.
  intros (r1 & P1 & H1) (r2 & P2 & H2). exists (r2 ++ r1). split.
  - rewrite P1, P2, <- app_assoc. reflexivity.
  - intros Hs x Hx. apply in_app_or in Hx as [|]; auto.
Qed.
Lemma kept_len s m m' : kept s m m' -> (length m' <= length m)%nat.
Proof. intros (r & Pm & _). apply Permutation_length in Pm. rewrite app_length, !sig_len in Pm. lia. Qed.
Lemma kept_perm s m m' : Permutation (sig m) (sig m') -> kept s m m'.
Proof. intros H. exists []. rewrite app_nil_r. split; [exact H|intros _ x []]. Qed.
Lemma kept_app (s : Prop) a a' b b' : kept s a a' -> kept s b b' -> kept s (a ++ b) (a' ++ b').
Proof.
  intros (r1 & P1 & H1) (r2 & P2 & H2). exists (r1 ++ r2). split.
  - unfold sig in *. rewrite !map_app, P1, P2. rewrite <- !app_assoc. apply Permutation_app_head.
    rewrite !app_assoc. apply Permutation_app_tail. apply Permutation_app_comm.
  - intros Hs x Hx. apply in_app_or in Hx as [|]; auto.
Qed.
Lemma sig_engine m ps : Forall2 (fun p q => lab q = lab p /\ w_removable w q = w_removable w p) m ps -> sig ps = sig m.
Proof. induction 1 as [|p q m ps [E1 E2] _ IH]; [reflexivity|]. unfold sig in *. cbn [map]. rewrite IH, E1, E2. reflexivity. Qed.

Lemma keep_idx_split {A} (bad : nat -> bool) (l : list A) : forall k, exists gone,
  Permutation l (keep_idx bad k l ++ gone) /\ forall a, In a gone -> exists i, nth_error l i = Some a /\ bad (k + i)%nat = true.
Proof.
  induction l as [|a l IH]; intros k; [exists []; split; [reflexivity|intros ? []]|].
  destruct (IH (S k)) as (gone & Pm & H). cbn [keep_idx]. destruct (bad k) eqn:Bk.
  - exists (a :: gone). split; [rewrite Pm at 1; apply Permutation_middle|].
    intros x [<-|Hx]; [exists 0%nat; split; [reflexivity|now rewrite Nat.add_0_r]|].
    destruct (H x Hx) as (i & N & Bi). exists (S i). split; [exact N|]. replace (k + S i)%nat with (S k + i)%nat by lia. exact Bi.
  - exists gone. split; [cbn [app]; now apply perm_skip|]. intros x Hx. destruct (H x Hx) as (i & N & Bi). exists (S i). split; [exact N|].
    replace (k + S i)%nat with (S k + i)%nat by lia. exact Bi.
Qed.

Lemma cleanfit_kept m rc ec m' n : cleanfit w m rc ec = Ok (m', n) ->
  kept (forall p, In p m -> w_has_nan w p = false) m m'.
Proof.
  unfold cleanfit, removed_indices. destruct rc as [|r0 rc]; [discriminate|]. cbn [bind].
  set (bad := fun i => _). intros E. injection E as E _.
  rewrite (delete_many bad m [] 0 eq_refl : fold_left del_at (rev (filter bad (seq 0 (length m)))) m = keep_idx bad 0 m) in E.
  destruct (keep_idx_split bad m 0) as (gone & Pm & H). subst m'.
  exists (sig gone). split.
  - unfold sig. rewrite <- map_app. now apply Permutation_map.
  - intros NN x Hx. unfold sig in Hx. apply in_map_iff in Hx as (p & <- & Hp). cbn [snd].
    destruct (H p Hp) as (i & N & Bi). cbn [Nat.add] in Bi. unfold bad in Bi. rewrite N in Bi.
    rewrite (NN p) in Bi by (eapply nth_error_In; exact N). rewrite orb_false_r in Bi.
    apply andb_prop in Bi as [_ Bi]. now apply andb_prop in Bi as [Bi _].
Qed.

Hypothesis AS : argsort_ok (w_argsort w).
Hypothesis ES : engine_shape.

(** What fit(estimate=False) can do to the model, and to the list it was given. *)
Lemma fit_kept c justify nt : let f := fit w c justify nt false false in
  kept engine_no_nan (c_model c) (c_model (fr_c f)) /\ kept engine_no_nan (c_model c) (fr_list f).
Proof.
  cbv zeta. unfold fit. destruct (c_never c); [split; apply kept_refl|].
  destruct (c_model c) as [|p m] eqn:M; [cbn [fr_c fr_list]; rewrite M; split; apply kept_refl|].
  cbn [andb]. rewrite <- M. clear M p m. set (c2 := set_last c (c_size c)).
  change (c_model c2) with (c_model c).
  destruct (w_engine w (c_model c) None c2 nt) as [[ps ob] out] eqn:EE.
  pose proof (sig_engine _ _ (ES _ _ _ _ _ _ _ EE)) as SG.
  assert (K0 : kept engine_no_nan (c_model c) ps) by (apply kept_perm; now rewrite SG).
  assert (KR : kept engine_no_nan (c_model c) (c_model c)) by apply kept_refl.
  destruct out as [[]|e]; [|destruct e; cbn [fr_c fr_list set_base set_model c_model]; split; assumption].
  assert (KS : kept engine_no_nan (c_model c) (sort_peaks w ps)).
  { eapply kept_trans; [exact K0|]. apply kept_perm. apply Permutation_map. symmetry. apply (sort_perm w AS). }
  destruct (cleanfit w (sort_peaks w ps) (r_cluster c2) (e_cluster c2)) as [[ps2 n]|e] eqn:CF;
    [|cbn [fr_c fr_list set_base set_model c_model]; split; assumption].
  assert (K2 : kept engine_no_nan (c_model c) ps2).
  { destruct (cleanfit_kept _ _ _ _ _ CF) as (rem & Pm & H).
    eapply kept_trans; [exact KS|]. exists rem. split; [exact Pm|]. intros NN. apply H.
    intros p Hp. apply (NN _ _ _ _ _ _ EE). eapply Permutation_in; [apply (sort_perm w AS)|exact Hp]. }
  destruct (w_qlt w _ _); [cbn [fr_c fr_list]; split; assumption|].
  destruct (_ && _); [|cbn [fr_c fr_list set_base set_model c_model]; split; assumption].
  destruct (min_npars w (c_pf c)); [|cbn [fr_c fr_list set_base set_model c_model]; split; assumption].
  destruct (w_growth w _ _ _); cbn [fr_c fr_list set_base set_model c_model]; split; assumption.
Qed.

(** fit(justify=False, estimate=False) only lets the optimiser's exceptions out. *)
Lemma fit_tame c nt : engine_tame -> r_cluster c <> [] -> exists o, fr_out (fit w c false nt false false) = Ok o.
Proof.
  intros ET RN. unfold fit. destruct (c_never c); [eexists; reflexivity|].
  destruct (c_model c) as [|p m] eqn:M; [eexists; reflexivity|].
  assert (MN : c_model c <> []) by (rewrite M; discriminate).
  cbn [andb]. set (c2 := set_last c (c_size c)). change (c_model c2) with (c_model c).
  destruct (w_engine w (c_model c) None c2 nt) as [[ps ob] out] eqn:EE.
  destruct out as [[]|e]; [|rewrite (ET _ _ _ _ _ _ _ MN EE); eexists; reflexivity].
  change (r_cluster c2) with (r_cluster c). unfold cleanfit, removed_indices.
  destruct (r_cluster c) as [|r0 rc]; [contradiction|]. cbn [bind].
  destruct (w_qlt w _ _); eexists; reflexivity.
Qed.

Lemma fit_frame c justify nt fb est : same_frame c (fr_c (fit w c justify nt fb est)).
Proof. apply (C37_fit_never_worse w AS c justify nt fb est). Qed.

(** ** The windows *)
Lemma local_model_perm (best : list P) i p : nth_error best i = Some p ->
  exists front back, best = front ++ slice best (window_lo i) i ++ p :: slice best (i + 1) (window_hi i (length best)) ++ back /\
    front = firstn (window_lo i) best /\ (forall n, (length best <= n)%nat -> back = skipn (window_hi i n) best).
Proof.
  intros N. assert (Hi : (i < length best)%nat) by (apply nth_error_Some; congruence).
  exists (firstn (window_lo i) best), (skipn (window_hi i (length best)) best).
  split; [|split; [reflexivity|]].
  - unfold window_lo, window_hi. rewrite (slice_split best (i - 3) i) at 1 by lia. f_equal. f_equal.
    pose proof N as N'. rewrite <- (firstn_skipn i best) in N'. rewrite nth_error_app2 in N' by (rewrite firstn_length; lia).
    rewrite firstn_length, Nat.min_l, Nat.sub_diag in N' by lia.
    destruct (skipn i best) as [|q tl] eqn:SK; [discriminate|]. injection N' as ->. f_equal.
    assert (T : tl = skipn (i + 1) best). { rewrite <- (skipn_add i 1), SK. reflexivity. }
    rewrite T. unfold slice. rewrite <- (firstn_skipn (Nat.min (i + 4) (length best) - (i + 1)) (skipn (i + 1) best)) at 1.
    f_equal. rewrite skipn_add. f_equal. lia.
  - intros n Hn. unfold window_hi. destruct (Nat.le_gt_cases (i + 4) (length best)).
    + rewrite !Nat.min_l by lia. reflexivity.
    + rewrite !skipn_all2 by lia. reflexivity.
Qed.

Lemma check_peaks_spec best bq rc yn is : forall mc mc' cks qs,
  check_peaks w qk best bq rc yn is mc = Ok (mc', cks, qs) ->
  length cks = length is /\
  (forall i q, In (i, q) qs -> In i is) /\
  (forall j i, nth_error is j = Some i -> exists o p, nth_error cks j = Some o /\ nth_error best i = Some p /\
     (w_removable w p = false -> o = None) /\
     (w_removable w p = true -> exists q, In (i, q) qs /\ (o = None <-> w_qlt w q bq = true) /\
        (forall l, o = Some l -> kept engine_no_nan (local_model best i) l))) /\
  c_r mc' = c_r mc /\ c_e mc' = c_e mc /\ c_start mc' = c_start mc /\ c_stop mc' = c_stop mc /\ c_never mc' = c_never mc.
Proof.
  induction is as [|i is IH]; intros mc mc' cks qs E; cbn [check_peaks] in E.
  - injection E as <- <- <-. split; [reflexivity|]. split; [intros ? ? []|]. split; [intros [|?] ? [=]|auto].
  - destruct (nth_error best i) as [p|] eqn:N; [|discriminate]. destruct (w_removable w p) eqn:RM.
    + set (mc1 := set_y _ _) in E. set (f := fit w mc1 _ _ _ _) in E.
      destruct (fr_out f) as [o0|]; [|discriminate].
      destruct (check_peaks w qk best bq rc yn is (fr_c f)) as [[[mc2 ck] q2]|] eqn:E2; cbn [bind] in E; [|discriminate].
      injection E as <- <- <-. destruct (IH _ _ _ _ E2) as (H1 & H2 & H3 & H4).
      pose proof (fit_frame mc1 false (Nat.sqrt (length rc) + 50) false false) as FF. fold f in FF.
      pose proof (fit_kept mc1 false (Nat.sqrt (length rc) + 50)) as FK. fold f in FK. destruct FK as [_ FK].
      split; [cbn; lia|]. split; [|split].
      * intros j q [Ej|Hj]; [injection Ej as <- _; now left|right; eauto].
      * intros [|j] i' Nj; cbn [nth_error] in *.
        -- injection Nj as <-. eexists _, p. split; [reflexivity|]. split; [exact N|]. split; [congruence|]. intros _.
           eexists. split; [left; reflexivity|]. split; [destruct (w_qlt w _ bq); split; congruence|].
           intros l El. destruct (w_qlt w _ bq); [discriminate|]. injection El as <-. exact FK.
        -- destruct (H3 j i' Nj) as (o & p' & A1 & A2 & A3 & A4). exists o, p'. split; [exact A1|]. split; [exact A2|]. split; [exact A3|].
           intros R. destruct (A4 R) as (q & B1 & B2). exists q. split; [now right|exact B2].
      * destruct H4 as (G1 & G2 & G3 & G4 & G5), FF as (F1 & F2 & F3 & F4 & F5 & F6 & F7 & F8).
        unfold mc1 in *. cbn [set_y set_model c_r c_e c_start c_stop c_never] in *. repeat split; congruence.
    + destruct (check_peaks w qk best bq rc yn is mc) as [[[mc2 ck] q2]|] eqn:E2; cbn [bind] in E; [|discriminate].
      injection E as <- <- <-. destruct (IH _ _ _ _ E2) as (H1 & H2 & H3 & H4).
      split; [cbn; lia|]. split; [|split; [|exact H4]].
      * intros j q Hj. right. eauto.
      * intros [|j] i' Nj; cbn [nth_error] in *.
        -- injection Nj as <-. exists None, p. repeat split; auto; congruence.
        -- apply H3; exact Nj.
Qed.

(** ** Everything prune_loop can return *)
Lemma nth_seq_inv j n i : nth_error (seq 0 n) j = Some i -> i = j /\ (j < n)%nat.
Proof.
  intros H. assert (L1 : (j < n)%nat) by (rewrite <- (seq_length n 0); apply nth_error_Some; congruence).
  split; [|exact L1]. apply (nth_error_nth _ _ 0%nat) in H. rewrite seq_nth in H by exact L1. lia.
Qed.
Lemma nth_seq n j : (j < n)%nat -> nth_error (seq 0 n) j = Some j.
Proof. intros H. rewrite (nth_error_nth' _ 0%nat) by (rewrite seq_length; exact H). rewrite seq_nth by exact H. reflexivity. Qed.

Hypothesis AM : argmax_ok (w_qlt w) qargmax.

Lemma prune_loop_kept : forall fuel rc yn cur best norig bq mc live m out,
  (length best <= norig)%nat -> (forall p, In p best -> True) ->
  prune_loop w qk qargmax fuel rc yn cur best norig bq mc live = Some (m, out) ->
  m = cur \/ (kept engine_no_nan best m /\ (length m < length best)%nat).
Proof.
  induction fuel as [|fuel IH]; intros rc yn cur best norig bq mc live m out Hn _ E; [discriminate|]. cbn [prune_loop] in E.
  destruct (negb _); [injection E as <- _; now left|].
  destruct (check_peaks w qk best bq rc yn (seq 0 (length best)) mc) as [[[mc1 cks] qs]|] eqn:CP; [|injection E as <- _; now left].
  destruct (check_peaks_spec _ _ _ _ _ _ _ _ _ CP) as (L1 & L2 & L3 & _).
  destruct qs as [|q0 qs']; [injection E as <- _; now left|]. set (qs := q0 :: qs') in *.
  destruct (nth_error qs _) as [[idx nq]|] eqn:NQ; [|injection E as <- _; now left].
  destruct (w_qlt w bq nq) eqn:QL; [|injection E as <- _; now left].
  destruct (nth_error cks idx) as [[l|]|] eqn:NC; try (injection E as <- _; now left).
  set (c2 := set_y _ _) in E. set (f := fit w c2 false 0 false false) in E.
  destruct (fr_out f); [|injection E as <- _; now left].
  assert (II : (idx < length best)%nat).
  { apply nth_error_In in NQ. apply L2 in NQ. apply in_seq in NQ. lia. }
  destruct (L3 idx idx (nth_seq _ _ II)) as (o & p & A1 & A2 & A3 & A4). rewrite NC in A1. injection A1 as <-.
  destruct (w_removable w p) eqn:RM; [|discriminate (A3 eq_refl)].
  destruct (A4 eq_refl) as (q & _ & _ & KL). specialize (KL l eq_refl).
  destruct (local_model_perm best idx p A2) as (front & back & EB & EF & EK). specialize (EK norig Hn).
  assert (KB : kept engine_no_nan best (c_model c2)).
  { unfold c2. cbn [set_y set_model c_model]. rewrite <- EF, <- EK. rewrite EB at 1.
    apply kept_app; [apply kept_refl|].
    destruct KL as (rem & Pm & Hr). exists ((lab p, w_removable w p) :: rem). split.
    - unfold sig, local_model in *. rewrite !map_app in *. cbn [map]. rewrite map_app.
      rewrite <- Permutation_middle. rewrite app_assoc. rewrite <- Permutation_middle.
      rewrite <- !app_assoc. cbn [app]. apply perm_skip. rewrite app_assoc. rewrite Pm.
      rewrite <- !app_assoc. apply Permutation_app_head. apply Permutation_app_comm.
    - intros NN x [<-|Hx]; [exact RM|now apply Hr]. }
  assert (LB : (length (c_model c2) < length best)%nat).
  { unfold c2. cbn [set_y set_model c_model]. rewrite <- EF, <- EK. apply kept_len in KL. unfold local_model in KL.
    apply (f_equal (@length P)) in EB. rewrite !app_length in *. cbn [length] in EB. rewrite app_length in EB. lia. }
  pose proof (fit_kept c2 false 0) as [FK _]. fold f in FK.
  assert (KF : kept engine_no_nan best (c_model (fr_c f))) by (eapply kept_trans; eauto).
  assert (LF : (length (c_model (fr_c f)) < length best)%nat) by (apply kept_len in FK; lia).
  destruct (c_model (fr_c f)) as [|p1 m1] eqn:CM.
  - injection E as <- _. right. split; [exact KF|]. cbn [length] in *. lia.
  - apply IH in E; [|lia|auto]. right. destruct E as [->|[K2 L4]]; [auto|]. split; [eapply kept_trans; eauto|lia].
Qed.

(** Enough fuel. *)
Lemma prune_loop_fuel : forall fuel rc yn cur best norig bq mc live,
  (length best < fuel)%nat -> (length best <= norig)%nat ->
  prune_loop w qk qargmax fuel rc yn cur best norig bq mc live <> None.
Proof.
  induction fuel as [|fuel IH]; intros rc yn cur best norig bq mc live Hf Hn; [lia|]. cbn [prune_loop].
  destruct (negb _); [discriminate|].
  destruct (check_peaks w qk best bq rc yn (seq 0 (length best)) mc) as [[[mc1 cks] qs]|] eqn:CP; [|discriminate].
  destruct (check_peaks_spec _ _ _ _ _ _ _ _ _ CP) as (L1 & L2 & L3 & _).
  destruct qs as [|q0 qs']; [discriminate|]. set (qs := q0 :: qs') in *.
  destruct (nth_error qs _) as [[idx nq]|] eqn:NQ; [|discriminate].
  destruct (w_qlt w bq nq) eqn:QL; [|discriminate].
  destruct (nth_error cks idx) as [[l|]|] eqn:NC; try discriminate.
  set (c2 := set_y _ _). set (f := fit w c2 false 0 false false).
  destruct (fr_out f); [|discriminate].
  assert (II : (idx < length best)%nat).
  { apply nth_error_In in NQ. apply L2 in NQ. apply in_seq in NQ. lia. }
  destruct (L3 idx idx (nth_seq _ _ II)) as (o & p & A1 & A2 & A3 & A4). rewrite NC in A1. injection A1 as <-.
  destruct (w_removable w p) eqn:RM; [|discriminate (A3 eq_refl)].
  destruct (A4 eq_refl) as (q & _ & _ & KL). specialize (KL l eq_refl).
  destruct (local_model_perm best idx p A2) as (front & back & EB & EF & EK). specialize (EK norig Hn).
  assert (LB : (length (c_model c2) < length best)%nat).
  { unfold c2. cbn [set_y set_model c_model]. rewrite <- EF, <- EK. apply kept_len in KL. unfold local_model in KL.
    apply (f_equal (@length P)) in EB. rewrite !app_length in *. cbn [length] in EB. rewrite app_length in EB. lia. }
  pose proof (fit_kept c2 false 0) as [FK _]. fold f in FK. apply kept_len in FK.
  destruct (c_model (fr_c f)) as [|p1 m1] eqn:CM; [discriminate|]. apply IH; cbn [length] in *; lia.
Qed.
End Proofs.

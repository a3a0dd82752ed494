(** Property C218: the order of the peaks of an extracted model. *)
From Coq Require Import Permutation Sorted Reals.
From Verif Require Import Prelude ModelCluster ModelClusterProofs ModelClusterProps Prune PruneProofs PruneProps AugmentProps Extract ExtractProofs ExtractProps.
From Verif Require Evaluators Nyquist PdfExtract DataClustersSpec DataClustersExamples.
Open Scope Z_scope.

Section Order.
Context {P B Q : Type}.
Variable T : xtools P B Q.
Notation w := (t_w T).
Notation cluster := (cluster P B).

Lemma sorted_skipn n : forall m : list P, pos_sorted (w_position w) m -> pos_sorted (w_position w) (skipn n m).
Proof. induction n as [|n IH]; intros m H; [exact H|]. destruct m as [|a m]; [constructor|]. cbn [skipn]. apply IH. now inversion H. Qed.
Lemma in_del_at (m : list P) x : forall i, In x (del_at m i) -> In x m.
Proof.
  intros i H. unfold del_at in H. apply in_app_or in H as [H|H].
  - rewrite <- (firstn_skipn i m). apply in_or_app. now left.
  - rewrite <- (firstn_skipn (S i) m). apply in_or_app. now right.
Qed.
Lemma sorted_del_at : forall (m : list P) i, pos_sorted (w_position w) m -> pos_sorted (w_position w) (del_at m i).
Proof.
  induction m as [|a m IH]; intros i H; [destruct i; exact H|]. destruct i as [|i]; [now inversion H|].
  change (del_at (a :: m) (S i)) with (a :: del_at m i). inversion H as [|? ? H1 H2]; subst. constructor; [now apply IH|].
  rewrite Forall_forall in *. intros x Hx. apply H2. eapply in_del_at, Hx.
Qed.
Lemma sorted_del_all is : forall m : list P, pos_sorted (w_position w) m -> pos_sorted (w_position w) (fold_left del_at is m).
Proof. induction is as [|i is IH]; intros m H; [exact H|]. cbn [fold_left]. apply IH, sorted_del_at, H. Qed.

(** ** C218 *)
(** Whenever a fit is accepted the peaks are in order of position afterwards. *)
Theorem C218_accepted_fit_in_order :
  argsort_ok (w_argsort w) ->
  forall (c : cluster) justify ntrials fitbaseline estimate q,
    fr_out (fit w c justify ntrials fitbaseline estimate) = Ok (Some q) ->
    pos_sorted (w_position w) (c_model (fr_c (fit w c justify ntrials fitbaseline estimate))).
Proof.
  intros AS c j n fb est q E. destruct (C37_kept_model w AS c j n fb est q E) as (s & k & _ & S & CF).
  unfold cleanfit in CF. destruct (removed_indices w s _ _) as [rm|]; [|discriminate]. cbn [bind] in CF.
  assert (M : fold_left del_at (rev rm) s = c_model (fr_c (fit w c j n fb est))) by congruence.
  rewrite <- M. now apply sorted_del_all.
Qed.

(** A fit that was undone or not made: it returns without a quality. *)
Definition undone (c : cluster) (fitbaseline estimate : bool) : Prop := fr_out (fit w c false 0 fitbaseline estimate) = Ok None.

Lemma prune_loop_order : argsort_ok (w_argsort w) ->
  forall fuel rc yn cur best norig bq mc live m o,
    (pos_sorted (w_position w) cur \/ exists c1, undone c1 false false) ->
    prune_loop w (t_qk T) (t_qargmax T) fuel rc yn cur best norig bq mc live = Some (m, o) ->
    pos_sorted (w_position w) m \/ exists c1, undone c1 false false.
Proof.
  intros AS. induction fuel as [|fuel IH]; intros rc yn cur best norig bq mc live m o H E; cbn [prune_loop] in E; [discriminate|].
  assert (K : forall o', Some (cur, o') = Some (m, o) -> pos_sorted (w_position w) m \/ exists c1, undone c1 false false).
  { intros o' [= <- _]. exact H. }
  destruct (negb _); [now apply (K _ E)|]. destruct (check_peaks _ _ _ _ _ _ _ _) as [[[mc1 cks] qs]|x]; [|now apply (K _ E)].
  destruct qs as [|q0 qs]; [now apply (K _ E)|]. destruct (nth_error (q0 :: qs) _) as [[idx nq]|]; [|now apply (K _ E)].
  destruct (w_qlt w bq nq); [|now apply (K _ E)]. destruct (nth_error cks idx) as [[l|]|]; [|now apply (K _ E)|now apply (K _ E)].
  cbv zeta in E. set (cc := set_y _ _) in E.
  destruct (fr_out (fit w cc false 0 false false)) as [[q|]|x] eqn:F; [| |now apply (K _ E)].
  - pose proof (C218_accepted_fit_in_order AS cc false 0 false false q F) as S.
    destruct (c_model (fr_c (fit w cc false 0 false false))) as [|p0 b']; [injection E as <- _; left; constructor|].
    eapply IH; [|exact E]. now left.
  - right. now exists cc.
Qed.
Lemma prune_order : argsort_ok (w_argsort w) ->
  forall fuel c m o, pos_sorted (w_position w) (c_model c) ->
    prune w (t_qk T) (t_qargmax T) fuel c = Some (m, o) -> pos_sorted (w_position w) m \/ exists c1, undone c1 false false.
Proof.
  intros AS fuel c m o S E. unfold prune in E. destruct (c_model c) as [|p0 r0] eqn:M; [injection E as <- _; left; constructor|].
  destruct (make_cluster _ _ _ _ _ _ _ _ _) as [mc|]; [|injection E as <- _; left; exact S].
  eapply prune_loop_order; [exact AS|left; exact S|exact E].
Qed.

Variables (bl : B) (cres : Z) (em : nat) (pf : list nat).
(** The peaks of the model found by a search are in order of position, unless a fit of the
    pruning was undone (or not made) and, at the top level, the last fit as well. *)
Theorem C218_extracted_in_order :
  argsort_ok (w_argsort w) ->
  forall fuel depth x y e ip c,
    extract T bl cres em pf fuel depth x y e ip = Some (Ok c) ->
    pos_sorted (w_position w) (c_model c) \/
    ((exists c1, undone c1 false false) /\ (depth = 1%nat -> exists c2, undone c2 true true /\ c_model c2 <> [] /\ c_never c2 = c_never c)).
Proof.
  intros AS [|fuel] depth x y e ip c E; [discriminate|]. cbn [extract] in E. unfold run in E.
  destruct (start _ _ _ _ _ _ _ _ _) as [[[s mcs] mp]|]; [|discriminate]. cbn [lift obind] in E.
  destruct (loop _ _ _ _ _ _ _ _ _ _ _ _ _) as [[u|]|]; [|discriminate|discriminate]. cbn [obind] in E.
  unfold finish in E. destruct (snd u) as [|c0 m0]; [discriminate|]. destruct (addexternalpeaks T c0 ip) as [c1|] eqn:EA; [|discriminate].
  cbn [lift obind] in E.
  assert (S1 : pos_sorted (w_position w) (c_model c1)).
  { unfold addexternalpeaks in EA. unfold replacepeaks in EA. destruct (slice_bounds _ _ _) as [a b]. cbn [fst snd] in EA. destruct (existsb _ _); [discriminate|].
    assert (M : c_model c1 = sort_peaks w (assign_slice (c_model c0) a b ip)) by (apply f_equal with (f := fun r => match r with Ok c => c_model c | _ => [] end) in EA; symmetry; exact EA).
    rewrite M. now apply sort_sorted. }
  destruct (prune w (t_qk T) (t_qargmax T) _ c1) as [[m [u1|]]|] eqn:EP; [|discriminate|discriminate].
  pose proof (prune_order AS _ _ _ _ S1 EP) as PO. destruct (Nat.eqb_spec depth 1) as [D|D].
  - destruct (fr_out (fit w (set_model c1 m) false 0 true true)) as [[q|]|] eqn:F; [| |discriminate].
    + left. assert (C : fr_c (fit w (set_model c1 m) false 0 true true) = c) by congruence. rewrite <- C.
      exact (C218_accepted_fit_in_order AS _ _ _ _ _ _ F).
    + destruct PO as [S|U].
      * left. assert (C : fr_c (fit w (set_model c1 m) false 0 true true) = c) by congruence. rewrite <- C.
        destruct (C37_fit_never_worse w AS (set_model c1 m) false 0 true true) as (_ & cc & [->|(M & p & _ & ->)] & R); rewrite F in R; destruct R as [-> _]; [exact S|].
        cbn [set_model c_model]. repeat constructor.
      * assert (C : fr_c (fit w (set_model c1 m) false 0 true true) = c) by congruence.
        destruct (C37_fit_never_worse w AS (set_model c1 m) false 0 true true) as (FR & cc & CC & R). rewrite F in R.
        destruct m as [|p0 m1].
        { left. rewrite <- C. destruct R as [-> _]. destruct CC as [->|(_ & p & _ & ->)]; cbn [set_model c_model]; repeat constructor. }
        right. split; [exact U|]. intros _. exists (set_model c1 (p0 :: m1)). split; [exact F|]. split; [discriminate|]. rewrite <- C. symmetry. apply FR.
  - assert (C : c = set_model c1 m) by congruence. subst c. destruct PO as [S|U]; [left; exact S|]. right. split; [exact U|]. intros ->. congruence.
Qed.

(** So the peaks are in order if the data are not all within their uncertainties (in which
    case nothing is fitted) and fits with a baseline are not undone. *)
Theorem C218_in_order_if_last_fit_accepted :
  argsort_ok (w_argsort w) -> (forall c, c_never c = false -> c_model c <> [] -> ~ undone c true true) ->
  forall fuel x y e ip c, extract T bl cres em pf fuel 1 x y e ip = Some (Ok c) -> c_never c = false -> pos_sorted (w_position w) (c_model c).
Proof.
  intros AS NU fuel x y e ip c E NV. destruct (C218_extracted_in_order AS _ _ _ _ _ _ _ E) as [S|[_ U]]; [exact S|].
  destruct (U eq_refl) as (c2 & H & NE & N2). now destruct (NU c2 (eq_trans N2 NV) NE).
Qed.
End Order.

(** PDFPeakExtraction.extract *)
Section Pdf.
Context {P B Q : Type}.
Variable T : xtools P B Q.
Notation w := (t_w T).
Variable enc : R -> Z.
Variable owner : P -> nat.
Variable static : P -> bool.
Variable set_owner : P -> nat -> P.
Variable ripples : nat -> bool.
Variable tfunc : nat -> nat.
Theorem C218_pdf_in_order :
  argsort_ok (w_argsort w) ->
  forall fuel s s' c,
    PdfExtract.pdf_extract T enc owner static set_owner ripples tfunc fuel s = (s', Some (Ok tt)) ->
    PdfExtract.p_extracted s' = Some c ->
    pos_sorted (w_position w) (c_model c) \/
    exists c2, undone T c2 true true /\ c_model c2 <> [] /\ c_never c2 = c_never c /\ c_model c = c_model c2.
Proof.
  intros AS fuel s s' c E X. unfold PdfExtract.pdf_extract in E. cbv zeta in E.
  destruct (PdfExtract.model_of _ _ _ _ _ _ _ _ _) as [[c0|]|] eqn:M; [|discriminate|discriminate].
  assert (C : c0 = c). { apply (f_equal fst) in E. cbn [fst] in E. subst s'. cbn in X. congruence. } subst c0. clear E X.
  unfold PdfExtract.model_of in M. destruct (PdfExtract.dr_raw _) as [raw|]; [|discriminate]. cbn [lift obind] in M.
  destruct (PdfExtract.extract_grid _) as [[[r1 y1] e1]|]; [|discriminate]. cbn [lift obind] in M.
  destruct (extract _ _ _ _ _ _ _ _ _ _ _) as [[c1|]|]; [|discriminate|discriminate]. cbn [obind] in M.
  destruct (if Evaluators.Rltb 0 _ then _ else _) as [[c2|]|]; [|discriminate|discriminate]. cbn [obind] in M. cbv zeta in M.
  destruct (fr_out (fit w c2 false 0 true true)) as [[q|]|] eqn:F; [| |discriminate];
    assert (C : fr_c (fit w c2 false 0 true true) = c) by congruence; rewrite <- C.
  - left. exact (C218_accepted_fit_in_order T AS _ _ _ _ _ _ F).
  - destruct (C37_fit_never_worse w AS c2 false 0 true true) as (FR & cc & CC & R). rewrite F in R. destruct R as [R _]. rewrite R.
    destruct (c_model c2) as [|p0 m1] eqn:M2.
    { left. destruct CC as [->|(_ & p & _ & ->)]; [rewrite M2; constructor|]. cbn [set_model c_model]. repeat constructor. }
    right. exists c2. split; [exact F|]. split; [rewrite M2; discriminate|]. split; [symmetry; apply FR|]. destruct CC as [->|(N & _)]; [reflexivity|congruence].
Qed.
End Pdf.

(** An extraction that meets the hypotheses: an evaluator for which no model is worse than
    another, so that no fit is undone. *)
Definition eworld : world xpeak Z Z :=
  mkWorld (fun x => x) (fun p => fst (fst p)) snd (fun _ => false)
    xvalue (fun cf p => 3%nat) (fun cf b => 1%nat) (fun b r => map (fun _ => b) r) Z.eqb isort (fun _ => 3%nat)
    (fun c => yqk c 0) (fun _ _ => false) (fun _ c _ => false) tallest idle (fun a b => (a + b) / 2) (fun _ _ m => m).
Definition etools : xtools xpeak Z Z :=
  mkTools eworld yqk zargmax DataClustersExamples.isort (fun _ n => Z.of_nat n) (fun z => z / 20 + 1).
Example C218_nonvacuous :
  argsort_ok (w_argsort (t_w etools)) /\
  (forall c, c_never c = false -> c_model c <> [] -> ~ undone etools c true true) /\
  exists c, extract etools 0 2 0 [7%nat] 4 1 vx vy ve [xp 9 1 true; xp 5 3 true; xp 1 2 true] = Some (Ok c) /\ c_never c = false /\ length (c_model c) = 5%nat.
Proof.
  split; [exact isort_ok|]. split.
  - intros c NV NE. unfold undone, fit. rewrite NV. destruct (c_model c) as [|p m] eqn:M; [congruence|]. clear NE. cbv zeta.
    destruct (w_engine (t_w etools) _ _ _ _) as [[ps ob] out] eqn:EE. cbn [t_w etools eworld w_engine idle] in EE. injection EE as _ _ <-.
    destruct (cleanfit _ _ _ _) as [[ps2 n]|]; [|discriminate]. cbn [t_w etools eworld w_qlt andb fr_out]. discriminate.
  - eexists. split; [vm_compute; reflexivity|]. split; reflexivity.
Qed.

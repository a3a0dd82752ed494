(** Property C223: PDFPeakExtraction on ModelParts fitted by ModelParts.fit, whatever
    scipy's leastsq does. *)
From Coq Require Import Permutation Reals Lra String.
Notation length := List.length.
From Verif Require Import Prelude Parts PartsProofs PartsFit ModelCluster ModelClusterProps Prune PruneProofs PruneProps
  Extract ExtractProofs ExtractProps EngineLink EngineLinkProps PdfExtract PdfExtractProps EnginePdf.
From Verif Require DataClustersExamples ModelClusterProofs Evaluators Nyquist.
Open Scope nat_scope.

Section Pdf.
Context {V X W Q : Type}.
Variable isnan : V -> bool.
Variable fn : nat -> func V X W.
Notation cont := (content V).
Notation cluster := (cluster cont cont).
Variable T : xtools cont cont Q.
Variable enc : R -> Z.
Variable ripples : nat -> bool.
Variable tfunc : nat -> nat.
Variables l1 l2 : list cont -> cluster -> nat -> lsq V.
Notation w := (t_w T).
Notation pdf_extract := (pdf_extract T enc part_owner part_static part_set_owner ripples tfunc).
Notation pdf_fit := (pdf_fit T enc).
Notation normal_form := (normal_form V X W fn).
Hypothesis NK : norm_keeps_length V X W fn.
Hypothesis NI : norm_idempotent V X W fn.
Hypothesis NN : norm_numbers V X W isnan fn.
Hypothesis PW : parts_world V X W isnan fn true l1 l2 w.
Hypothesis CF : counts_free w.
Hypothesis RF : ripple_functions fn ripples tfunc.
Hypothesis A1 : answers_fit V l1.
Hypothesis A2 : answers_fit V l2.

Lemma p_shape : engine_shape w (identity V X W fn).
Proof. exact (C221_shape_assumption V X W isnan fn w true l1 l2 PW NK NI). Qed.
Lemma p_no_nan : engine_no_nan w.
Proof. exact (C221_nan_assumption V X W isnan fn w true l1 l2 PW NK eq_refl NN A1 A2). Qed.
Lemma p_new o : tfunc o <> o. Proof. apply RF. Qed.
Lemma p_so1 (p : cont) o : part_owner (part_set_owner p o) = o. Proof. now destruct p as [[[[ow ps] fl] rm] st]. Qed.
Lemma p_so2 p o : w_removable w (part_set_owner p o) = w_removable w p.
Proof. destruct PW as (_ & ER & _). destruct p as [[[[ow ps] fl] rm] st]. cbn [part_set_owner]. now rewrite !ER. Qed.
Lemma p_so3 p o : w_p_npars w false (part_set_owner p o) = w_p_npars w false p.
Proof. destruct p as [[[[ow ps] fl] rm] st]. cbn [part_set_owner]. now rewrite !CF. Qed.
Lemma p_so4 (p : cont) o : part_static (part_set_owner p o) = part_static p. Proof. now destruct p as [[[[ow ps] fl] rm] st]. Qed.
Lemma p_lo p q : identity V X W fn p = identity V X W fn q -> part_owner p = part_owner q /\ part_static p = part_static q.
Proof. destruct p as [[[[ow ps] fl] rm] st], q as [[[[ow' ps'] fl'] rm'] st']. cbn. intros H. injection H as -> -> -> _. auto. Qed.
Lemma nf_ripples o l : normal_form (tfunc o) l = normal_form o l.
Proof. unfold EngineLinkProps.normal_form. destruct RF as (_ & _ & _ & H). now rewrite H. Qed.
Lemma p_ls p q : identity V X W fn p = identity V X W fn q ->
  identity V X W fn (part_set_owner p (tfunc (part_owner p))) = identity V X W fn (part_set_owner q (tfunc (part_owner q))).
Proof.
  destruct p as [[[[ow ps] fl] rm] st], q as [[[[ow' ps'] fl'] rm'] st']. cbn. intros H. injection H as -> -> -> H. rewrite !nf_ripples.
  destruct (existsb _ fl'); [reflexivity|]. now injection H as ->.
Qed.
Lemma p_static_id ow ps fl rm st : identity V X W fn (ow, ps, fl, rm, st) = (ow, fl, st, if existsb (fun b => b) fl then None else Some (normal_form ow ps)).
Proof. reflexivity. Qed.
Lemma all_fixed fl : (forall b, In b fl -> b = false) -> existsb (fun b => b) fl = false.
Proof. intros AF. destruct (existsb (fun b => b) fl) eqn:EX; [|reflexivity]. apply existsb_exists in EX as (b & Hb & ->). discriminate (AF _ Hb). Qed.

(** extract(): an initial peak that is not removable is in the result with its free flags
    and switches, and with its function or - if there is a qmax and it may change it -
    that function with termination ripples; if all its parameters are held fixed, they are
    what they were, up to the normal form. *)
Theorem C223_protected_initial_peak :
  forall fuel s s', let d := p_data s in
    sane T (p_bl s) -> usable d -> (0 <= d_qmax d)%R -> (0 < d_supersample d)%R -> resolves enc d ->
    pdf_extract fuel s = (s', Some (Ok tt)) ->
    exists c, p_extracted s' = Some c /\
      forall ow ps fl st, In (ow, ps, fl, false, st) (p_ip s) ->
        exists ow' ps', In (ow', ps', fl, false, st) (c_model c) /\
          (d_qmax d = 0%R \/ st = true \/ ripples ow = true -> ow' = ow) /\
          (d_qmax d <> 0%R -> st = false -> ripples ow = false -> ow' = tfunc ow) /\
          ((forall b, In b fl -> b = false) -> normal_form ow ps' = normal_form ow ps).
Proof.
  intros fuel s s' d SN U QP SP RV E. pose proof SN as (_ & AS & _). pose proof (proj1 (proj2 PW)) as ER.
  destruct (C118_protected_initial_peaks_survive T enc part_owner part_static part_set_owner ripples tfunc (identity V X W fn)
    p_new AS p_shape p_so2 p_so3 p_lo p_ls fuel s s' SN p_no_nan U QP SP RV E) as (c & EC & SURV).
  exists c. split; [exact EC|]. intros ow ps fl st Hp.
  destruct (SURV _ Hp (ER _ _ _ _ _)) as ([[[[ow' ps'] fl'] rm'] st'] & Hq & RQ & LQ). rewrite ER in RQ. subst rm'. fold d in LQ.
  unfold rippled in LQ. cbn [part_owner part_static part_set_owner] in LQ.
  destruct (Req_EM_T (d_qmax d) 0) as [Z|Z].
  { rewrite !p_static_id in LQ. injection LQ as -> -> -> LF. exists ow, ps'. split; [exact Hq|]. split; [reflexivity|]. split; [contradiction|].
    intros AF. rewrite (all_fixed _ AF) in LF. now injection LF. }
  destruct (ripples ow || st)%bool eqn:RS; rewrite !p_static_id in LQ; injection LQ as -> -> -> LF.
  - exists ow, ps'. split; [exact Hq|]. split; [reflexivity|]. split; [intros _ -> R0; rewrite R0 in RS; discriminate|].
    intros AF. rewrite (all_fixed _ AF) in LF. now injection LF.
  - apply Bool.orb_false_iff in RS as [R1 R2]. exists (tfunc ow), ps'. split; [exact Hq|].
    split; [intros [C|[C|C]]; [contradiction|congruence|congruence]|]. split; [reflexivity|].
    intros AF. rewrite (all_fixed _ AF), !nf_ripples in LF. now injection LF.
Qed.

(** fit(): every peak of the result is one of the initial peaks: same function, free flags and
    switches, and the same parameters, up to the normal form, if they are all held fixed; there
    are not more of them, and only removable ones are missing. *)
Theorem C223_fit_refines :
  ModelClusterProofs.argsort_ok (w_argsort w) ->
  forall s s', let d := p_data s in
    usable d -> (0 <= d_qmax d)%R -> pdf_fit s = (s', Ok tt) ->
    exists c, p_extracted s' = Some c /\ length (c_model c) <= length (p_ip s) /\
      (forall ow ps' fl rm st, In (ow, ps', fl, rm, st) (c_model c) ->
         exists ps, In (ow, ps, fl, rm, st) (p_ip s) /\ ((forall b, In b fl -> b = false) -> normal_form ow ps' = normal_form ow ps)) /\
      (forall ow ps fl st, In (ow, ps, fl, false, st) (p_ip s) ->
         exists ps', In (ow, ps', fl, false, st) (c_model c) /\ ((forall b, In b fl -> b = false) -> normal_form ow ps' = normal_form ow ps)).
Proof.
  intros AS s s' d U QP E. pose proof (proj1 (proj2 PW)) as ER.
  destruct (C119_fit_model T enc (identity V X W fn) AS p_shape s s' U QP E) as (r & y & e & c & c1 & _ & EC & _ & _ & _ & _ & _ & _ & K & LE & _).
  exists c. split; [exact EC|]. split; [exact LE|]. split.
  - intros ow ps' fl rm st Hq. destruct (kept_in T (identity V X W fn) _ _ _ _ K Hq) as ([[[[ow0 ps] fl0] rm0] st0] & Hp & LQ & RQ).
    rewrite !ER in RQ. subst rm0. rewrite !p_static_id in LQ. injection LQ as <- <- <- LF. exists ps. split; [exact Hp|].
    intros AF. rewrite (all_fixed _ AF) in LF. now injection LF.
  - intros ow ps fl st Hp. destruct K as (rem & PM & H).
    assert (I : In (identity V X W fn (ow, ps, fl, false, st), false) (sig w (identity V X W fn) (c_model c) ++ rem)).
    { eapply Permutation_in; [exact PM|]. unfold sig. apply in_map_iff. exists (ow, ps, fl, false, st). now rewrite ER. }
    apply in_app_or in I as [I|I].
    + unfold sig in I. apply in_map_iff in I as ([[[[ow' ps'] fl'] rm'] st'] & EZ & Hz). rewrite ER, !p_static_id in EZ. injection EZ as -> -> -> LF ->.
      exists ps'. split; [exact Hz|]. intros AF. rewrite (all_fixed _ AF) in LF. now injection LF.
    + exfalso. pose proof (H p_no_nan _ I) as C. discriminate.
Qed.
End Pdf.

(** ** The hypotheses are satisfiable and the conclusions are not trivial *)
(** The functions of EngineLinkProps (0: a peak, others: a constant), and the same with
    termination ripples from 100 on. *)
Definition fns2 (o : nat) : func num Z Z := fns (o mod 100).
Definition ripples2 (o : nat) : bool := 100 <=? o.
Definition tfunc2 (o : nat) : nat := o + 100.
Definition tries2 (all : list pk) (c : cluster pk pk) (n : nat) : lsq num :=
  if forallb (admissible num Z Z lnan fns2 true) all
  then ([map (option_map (fun v => v - 7)%Z) (start_of all)], LDone num (start_of all) 1 true)
  else ([], LRaise num ValueError).
Definition lw2 : world pk pk Z :=
  mkWorld (fun x => x) px (fun p => let '(_, _, _, rm, _) := p in rm) (has_nan num lnan)
    pval (fun cf p => let '(_, ps, fl, _, _) := p in if cf then length ps else length (filter (fun b => b) fl)) (fun cf b => 1%nat) bval (fun _ _ => true) ModelClusterProofs.isort (fun _ => 2%nat)
    (fun c => misfit c 0) Z.ltb (fun _ c _ => (length (c_model c) =? 0)%nat) highest
    (parts_engine num Z Z lnan fns2 true tries2 tries2) (fun a b => ((a + b) / 2)%Z) (fun _ _ m => m).
Definition ltools2 : xtools pk pk Z :=
  mkTools lw2 misfit zargmax DataClustersExamples.isort (fun _ n => Z.of_nat n) (fun z => (z / 20 + 1)%Z).
Definition lpdf (q : R) (ip : list pk) : @pdf pk pk := mkPdf (rdata q) 2 [7%nat] 0 (level 1 true) ip None None.
Definition run2 (q : R) (ip : list pk) := PdfExtract.pdf_extract ltools2 Int_part part_owner part_static part_set_owner ripples2 tfunc2 5 (lpdf q ip).
Definition own2 (q : R) (ip : list pk) := PdfExtract.owned ltools2 Int_part part_owner part_static part_set_owner ripples2 tfunc2 5 (clearcalc (lpdf q ip)).

Lemma fns2_keep : norm_keeps_length num Z Z fns2. Proof. intros ow l l'. apply fns_keep. Qed.
Lemma fns2_idem : norm_idempotent num Z Z fns2. Proof. intros ow l a. apply fns_idem. Qed.
Lemma fns2_numbers : norm_numbers num Z Z lnan fns2. Proof. intros ow l a. apply fns_numbers. Qed.
Lemma fns2_ripples : ripple_functions fns2 ripples2 tfunc2.
Proof.
  assert (M : forall o, (o + 100) mod 100 = o mod 100) by (intros o; replace (o + 100) with (o + 1 * 100) by lia; apply Nat.mod_add; lia).
  unfold fns2, ripples2, tfunc2. split; [intros; lia|]. split; [intros; apply Nat.leb_le; lia|]. split; intros; now rewrite M.
Qed.
Lemma tries2_fit : answers_fit num tries2.
Proof.
  intros all c n x ier pc E. unfold tries2 in E. destruct (forallb _ all) eqn:A; [|discriminate]. injection E as <- _ _.
  induction all as [|[[[[ow ps] fl] rm] st] all IH]; [reflexivity|]. cbn [forallb] in A. apply andb_true_iff in A as [A1 A2].
  unfold start_of. cbn [map concat]. rewrite app_length. fold (start_of all). rewrite (IH A2). cbn [list_sum fold_right]. f_equal.
  cbn in A1. apply andb_true_iff in A1 as [A1 _]. apply andb_true_iff in A1 as [L1 L2]. apply Nat.eqb_eq in L1, L2. apply mask_get_length. congruence.
Qed.
Lemma lw2_sane : sane ltools2 (level 1 true).
Proof.
  split; [split; intros; cbn; lia|]. split; [exact ModelClusterProofs.isort_ok|]. split; [exact DataClustersExamples.isort_ok|].
  split; [reflexivity|]. split; intros; apply map_length.
Qed.
Lemma run2_eq q ip : q = 0%R \/ q = 1%R -> run2 q ip =
  let s0 := clearcalc (lpdf q ip) in
  match
    (odo c <- extract ltools2 (level 1 true) 2 0 [7%nat] 4 1 rx ry re ip;
     odo c1 <- (if Evaluators.Rltb 0 q then
       odo m <- lift (wrap_all part_owner part_static part_set_owner ripples2 tfunc2 (c_model c));
       odo c2 <- lift (make_cluster lw2 m (c_base c) (mkArr 3 rx) (mkArr 4 ry) (mkArr 5 re) None 0 [7%nat]);
       match prune lw2 (t_qk ltools2) (t_qargmax ltools2) (S (length (c_model c2))) c2 with
       | None => None
       | Some (_, Err e) => Some (Err e)
       | Some (m2, Ok _) => Some (Ok (set_model c2 m2))
       end else Some (Ok c));
     let f := fit lw2 c1 false 0 true true in
     match fr_out f with Err e => Some (Err e) | Ok _ => Some (Ok (fr_c f)) end)
  with
  | None => (s0, None)
  | Some (Err e) => (with_baseline s0 (fst (own2 q ip)), Some (Err e))
  | Some (Ok c) => (with_result (with_baseline s0 (fst (own2 q ip))) (Some c) (Some "extract"%string), Some (Ok tt))
  end.
Proof.
  intros HQ. unfold run2, PdfExtract.pdf_extract. cbv zeta. fold (own2 q ip). generalize (own2 q ip). intros ow. unfold PdfExtract.model_of. change (p_data (clearcalc (lpdf q ip))) with (rdata q).
  destruct (raw_ok _ (rusable q)) as (x0 & xn & _ & _ & ER & _). rewrite ER, (rgrid q HQ). cbn [lift obind]. rewrite !int_parts. unfold PdfExtract.with_ripples.
  unfold arr. rewrite !int_parts. reflexivity.
Qed.
(** A whole extraction with qmax = 1, a protected peak at 2 with everything fixed and a free
    peak at 3: the protected one is there, with ripples. *)
Example C223_nonvacuous :
  norm_keeps_length num Z Z fns2 /\ norm_idempotent num Z Z fns2 /\ norm_numbers num Z Z lnan fns2 /\ ripple_functions fns2 ripples2 tfunc2 /\
  parts_world num Z Z lnan fns2 true tries2 tries2 lw2 /\ counts_free lw2 /\ answers_fit num tries2 /\ sane ltools2 (level 1 true) /\
  usable (rdata 1) /\ resolves Int_part (rdata 1) /\
  exists s' c, run2 1 [peak_at 2 (-3) false false; peak_at 3 2 true true] = (s', Some (Ok tt)) /\ p_extracted s' = Some c /\
    In (100, [Some 2; Some (-3)]%Z, [false; false], false, false) (c_model c).
Proof.
  split; [exact fns2_keep|]. split; [exact fns2_idem|]. split; [exact fns2_numbers|]. split; [exact fns2_ripples|]. split; [split; [reflexivity|split; reflexivity]|].
  split; [intros ow ps fl rm st; reflexivity|]. split; [exact tries2_fit|]. split; [exact lw2_sane|]. split; [apply rusable|]. split; [apply rresolves; auto|].
  rewrite run2_eq by auto. rewrite lt01. match goal with |- context [match ?t with None => _ | Some _ => _ end] => let v := eval vm_compute in t in change t with v end.
  eexists _, _. split; [reflexivity|]. split; [reflexivity|]. cbn [c_model In]. tauto.
Qed.

Print Assumptions C223_protected_initial_peak.
Print Assumptions C223_fit_refines.
Print Assumptions C223_nonvacuous.

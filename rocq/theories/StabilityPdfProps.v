(** Property C220: extractions can be repeated, and stability runs do not depend on their history. *)
From Coq Require Import Permutation Sorted Reals Lra String.
From Verif Require Import Prelude Evaluators ModelCluster ModelClusterProofs ModelClusterProps Prune Nyquist Extract ExtractProofs ExtractProps ExtractBaseProps Ownership PdfExtract PdfExtractProps OwnershipProps StabilityPdf.
From Verif Require Stability StabilityProps.
From Verif Require DataClustersSpec.
Open Scope Z_scope.
Open Scope list_scope.
Notation length := List.length.

Section Fixed.
Context {P B Q : Type}.
Variable T : xtools P B Q.
Notation w := (t_w T).
Notation cluster := (cluster P B).

(** A fit changes nothing in a baseline without free parameters. *)
Lemma fit_fixed c justify nt fb est b : c_base c = Some b -> w_b_npars w false b = 0%nat ->
  fr_base (fit w c justify nt fb est) = Some b /\ c_base (fr_c (fit w c justify nt fb est)) = Some b.
Proof.
  intros HB NP.
  assert (EST : forall c1 o, estimatepeak w c = (c1, o) -> c_base c1 = Some b).
  { intros c1 o E. unfold estimatepeak in E. destruct (c_pf c); [now injection E as <- _|]. destruct (w_estimate w c) as [[p|]|]; try (now injection E as <- _).
    destruct (replacepeaks w (c_model c) [p] (Some 0%Z) (Some 0%Z)) as [m [u|x]]; injection E as <- _; exact HB. }
  unfold fit. destruct (c_never c); [split; exact HB|].
  match goal with |- context [match ?t with (_, _) => _ end] => set (step := t) end.
  assert (S1 : c_base (fst step) = Some b).
  { unfold step. destruct (c_model c); [|exact HB]. destruct est; [|exact HB]. destruct (estimatepeak w c) as [c1 [u|x]] eqn:E; specialize (EST c1 _ eq_refl); [exact EST|]. destruct x; exact EST. }
  destruct step as [c1 [r|]]; cbn [fst] in S1; cbv zeta; [split; exact S1|].
  cbn [set_last c_base c_model]. rewrite S1, NP. change ((0 <? 0)%nat) with false. rewrite andb_false_r.
  destruct (w_engine w _ _ _ _) as [[ps ob] [[]|x]]; [|destruct x; split; first [reflexivity|exact S1]].
  destruct (cleanfit w _ _ _) as [[ps2 n]|x]; [|split; reflexivity].
  destruct (w_qlt w _ _); [split; [reflexivity|exact S1]|].
  destruct (justify && _ && _); [destruct (min_npars _ _); [destruct (w_growth _ _ _ _)|]|]; split; first [reflexivity|exact S1].
Qed.
Lemma make_cluster_base m b r y e sl em pf c : make_cluster w m b r y e sl em pf = Ok c -> c_base c = b.
Proof.
  unfold make_cluster, change_slice_from. destruct (match sl with None => _ | Some s => s end) as [a0 b0]. cbv zeta.
  cbn [c_base c_r c_y c_e c_model c_never c_last c_em c_pf]. destruct (all_below _ _ _ _); [|discriminate]. intros E. injection E as <-. reflexivity.
Qed.
Lemma round_fixed resampled b em pf dr c c' : w_b_npars w false b = 0%nat ->
  round w (t_qk T) (t_qargmax T) resampled (Some b) em pf dr c = Some (Ok c') -> c_base c' = Some b.
Proof.
  intros NP E. unfold round in E. destruct (resampled dr) as [[[r2 y2] e2]|]; [|discriminate].
  destruct (make_cluster w _ _ _ _ _ _ _ _) as [c1|] eqn:EM; [|discriminate]. apply make_cluster_base in EM. cbv zeta in E.
  destruct (fr_out _); [|discriminate]. destruct (prune _ _ _ _ _) as [[m [u|]]|]; [|discriminate|discriminate]. injection E as <-.
  cbn [set_model c_base]. now apply fit_fixed.
Qed.
Lemma nyquist_fixed resampled b em pf sp drn : w_b_npars w false b = 0%nat ->
  forall fuel c used t, nyquist_loop w (t_qk T) (t_qargmax T) resampled (Some b) em pf sp drn fuel c used = Some (Ok t) -> c_base (fst t) = Some b.
Proof.
  intros NP. induction fuel as [|fuel IH]; intros c used t E; [discriminate|]. cbn [nyquist_loop] in E. cbv zeta in E.
  destruct (round w _ _ _ _ _ _ _ c) as [[c'|]|] eqn:ER; [|discriminate|discriminate]. pose proof (round_fixed _ _ _ _ _ _ _ NP ER) as HB.
  destruct (Req_EM_T _ _); [injection E as <-; exact HB|]. destruct (_ =? _)%nat; [injection E as <-; exact HB|]. eapply IH, E.
Qed.
End Fixed.

Section Pdf.
Context {P B Q : Type}.
Variable T : xtools P B Q.
Notation w := (t_w T).
Variable enc : R -> Z.
Variable dec : Z -> R.
Variable owner : P -> nat.
Variable static : P -> bool.
Variable set_owner : P -> nat -> P.
Variable ripples : nat -> bool.
Variable tfunc : nat -> nat.
Notation pdf := (@pdf P B).
Notation pdf_extract := (pdf_extract T enc owner static set_owner ripples tfunc).
Notation owned := (owned T enc owner static set_owner ripples tfunc).
Notation model_of := (model_of T enc owner static set_owner ripples tfunc).

(** The settings make sense: increasing distances, values and uncertainties for each, a range
    with at least two points. *)
Definition sound (s : pdf) : Prop :=
  sane T (p_bl s) /\ usable (p_data s) /\ (0 <= d_qmax (p_data s))%R /\ (0 < d_supersample (p_data s))%R /\ resolves enc (p_data s).
(** The first point of the range is not the highest, or the baseline has no free parameter. *)
Definition undisturbed (s : pdf) : Prop := first_not_highest T enc s \/ w_b_npars w false (p_bl s) = 0%nat.

Lemma ripples_fixed fuel s g drn c c' : w_b_npars w false (p_bl s) = 0%nat -> c_base c = Some (p_bl s) ->
  with_ripples T enc owner static set_owner ripples tfunc fuel s g drn c = Some (Ok c') -> c_base c' = Some (p_bl s).
Proof.
  intros NP HB E. unfold with_ripples in E. destruct g as [[r1 y1] e1]. apply obind_ok in E as (m & EM & E). cbv zeta in E. rewrite HB in E.
  destruct (d_nyquist _).
  - apply obind_ok in E as (sp & _ & E). apply obind_ok in E as (t & ET & E). apply nyquist_fixed in ET; [|exact NP]. cbn [lift] in E. injection E as <-. exact ET.
  - apply obind_ok in E as (c2 & E2 & E). apply lift_ok in E2. apply make_cluster_base in E2. destruct (prune _ _ _ _ _) as [[m2 [u|]]|]; [|discriminate|discriminate].
    injection E as <-. exact E2.
Qed.
Lemma fixed_kept fuel s : sound s -> w_b_npars w false (p_bl s) = 0%nat ->
  fst (owned fuel s) = p_bl s /\ forall c, model_of fuel s = Some (Ok c) -> c_base c = Some (p_bl s).
Proof.
  intros (SN & U & QP & SP & RV) NP. unfold PdfExtract.owned, PdfExtract.model_of.
  destruct (dr_raw (p_data s)) as [raw|]; [|split; [reflexivity|discriminate]]. destruct (extract_grid (p_data s)) as [[[r1 y1] e1]|] eqn:EG; [|split; [reflexivity|discriminate]].
  cbn [lift obind].
  destruct (C115_extraction_grid _ U QP SP) as (r & y & e & EG' & SO & NE & LY & LE & _). rewrite EG in EG'. injection EG' as <- <- <-.
  assert (X : forall c, extract T (p_bl s) (p_cres s) (p_em s) (p_pf s) 4 1 (map enc r1) (map enc y1) (map enc e1) (p_ip s) = Some (Ok c) -> c_base c = Some (p_bl s)).
  { intros c E. eapply C206_baseline_of_the_result; [exact SN| | | | |exact E|exact NP].
    - exact (enc_increasing enc r1 SO (RV _ _ _ EG)).
    - destruct r1; [contradiction|discriminate].
    - now rewrite !map_length.
    - now rewrite !map_length. }
  rewrite (C215_same_extraction T) in *.
  assert (UU : forall u rr, own_extract T (p_bl s) (p_cres s) (p_em s) (p_pf s) (map enc r1) (map enc y1) (map enc e1) (p_ip s) = Some (u, rr) -> u = p_bl s).
  { clear X. intros u rr E. unfold own_extract, own_run in E.
    destruct (start _ _ _ _ _ _ _ _ _) as [[[s0 mcs] mp]|] eqn:ES; [|injection E as <- <-; reflexivity].
    destruct (loop _ _ _ _ _ _ _ _ _ _ _ _ _) as [[v|]|] eqn:EL; [|injection E as <- <-; reflexivity|discriminate].
    assert (LS : length (vsum w (map enc r1) (p_ip s)) = length (map enc y1)) by (rewrite (vsum_len T (p_bl s)) by exact SN; rewrite !map_length; congruence).
    assert (AR : arrays_ok (mkArr 0 (map enc r1)) (mkArr 1 (vsub w (map enc y1) (vsum w (map enc r1) (p_ip s)))) (mkArr 2 (map enc e1))).
    { unfold arrays_ok. cbn [adat]. rewrite ExtractProps.vsub_len by congruence. repeat split; try (rewrite !map_length; assumption); try exact (enc_increasing enc r1 SO (RV _ _ _ EG)). destruct r1; [contradiction|discriminate]. }
    destruct (loop_result _ _ _ _ _ _ _ _ _ _ _ SN AR _ _ _ _ _ (at_start _ _ _ _ _ _ _ _ _ _ _ _ _ _ ES) EL) as (c0 & E1 & M).
    destruct M as (_ & _ & _ & _ & _ & _ & MB). unfold own_finish in E. rewrite E1 in E.
    destruct (addexternalpeaks T c0 (p_ip s)) as [c1|] eqn:EA; [|injection E as <- <-; reflexivity].
    destruct (add_frame T (p_bl s) SN _ _ _ EA) as (_ & _ & _ & _ & _ & FB & _).
    destruct (prune _ _ _ _ c1) as [[m1 [v1|]]|]; [|injection E as <- <-; reflexivity|discriminate].
    assert (HB : c_base (set_model c1 m1) = Some (p_bl s)) by (cbn [set_model c_base]; congruence).
    injection E as <- <-. rewrite (proj1 (fit_fixed T _ false 0 true true _ HB NP)). now destruct (hd true _). }
  destruct (own_extract _ _ _ _ _ _ _ _ _) as [[u [[c o]|]]|]; [| |split; [reflexivity|discriminate]].
  2:{ split; [exact (UU _ _ eq_refl)|discriminate]. }
  specialize (UU _ _ eq_refl). specialize (X c eq_refl). subst u. cbn [obind]. cbv zeta.
  destruct (if Rltb 0 (d_qmax (p_data s)) then _ else _) as [[c1|]|] eqn:E1; [|split; [reflexivity|discriminate]|split; [reflexivity|discriminate]].
  assert (HB : c_base c1 = Some (p_bl s)) by (destruct (Rltb 0 _); [eapply ripples_fixed; eassumption|now injection E1 as <-]).
  cbn [obind fst]. destruct (fit_fixed T c1 false 0 true true _ HB NP) as [F1 F2]. rewrite F1. split; [now destruct (_ && _)|].
  intros c2 E. destruct (fr_out _); [|discriminate]. now injection E as <-.
Qed.

Lemma baseline_kept fuel s s' o : sound s -> undisturbed s -> pdf_extract fuel s = (s', o) -> p_bl s' = p_bl s.
Proof.
  intros SD [FN|NP] E.
  - destruct SD as (SN & U & QP & SP & RV). eapply C215_extract_leaves_baseline_alone; eassumption.
  - unfold PdfExtract.pdf_extract in E. cbv zeta in E.
    destruct (fixed_kept fuel (clearcalc s) SD NP) as [E1 _]. rewrite E1 in E. change (p_bl (clearcalc s)) with (p_bl s) in E.
    destruct (model_of _ _) as [[c|]|]; injection E as <- <-; reflexivity.
Qed.

(** ** C220 *)
(** extract() again, on the object extract() has left: the same outcome and the same object. *)
Theorem C220_extract_again :
  forall fuel s s' o, sound s -> undisturbed s -> pdf_extract fuel s = (s', o) ->
    pdf_extract fuel s' = (s', o) /\ p_bl s' = p_bl s /\ p_data s' = p_data s /\ p_ip s' = p_ip s.
Proof.
  intros fuel s s' o SD UD E. pose proof (baseline_kept _ _ _ _ SD UD E) as HB.
  assert (C : clearcalc s' = clearcalc s).
  { unfold PdfExtract.pdf_extract in E. cbv zeta in E. destruct (model_of _ _) as [[c|]|]; injection E as <- <-;
      unfold clearcalc, with_result, with_baseline in *; cbn [p_data p_cres p_pf p_em p_bl p_ip p_extracted p_type] in *; now rewrite ?HB. }
  split.
  - unfold PdfExtract.pdf_extract in *. rewrite C. exact E.
  - split; [exact HB|]. split; [exact (f_equal p_data C)|exact (f_equal p_ip C)].
Qed.

(** *** PeakStability.run *)
Notation ppe := (@Stability.ppe P B pdf).
Context {D : Type}.
Notation stab := (@Stability.stab P B D pdf).
Variable spacing : cluster P B -> result D.
Variable fuel : nat.
Notation run := (Stability.run (do_pdf T enc dec owner static set_owner ripples tfunc fuel) spacing).
(** The extracter with uncertainty [e] at every point, all other settings as in [s]. *)
Definition with_uncertainty (s : stab) (b : B) (e : Z) : pdf :=
  let x := Stability.p_rest (Stability.s_ppe s) in
  mkPdf (data_with (p_data x) (repeat (dec e) (length (Stability.p_x (Stability.s_ppe s))))) (p_cres x) (p_pf x) (p_em x) b (p_ip x) None None.
Lemma extracter_at s b e : extracter dec (StabilityProps.at_error s e) b = with_uncertainty s b e.
Proof.
  unfold extracter, with_uncertainty, StabilityProps.at_error. cbn [Stability.p_rest Stability.p_edy]. do 2 f_equal.
  induction (length _) as [|n IH]; [reflexivity|]. cbn [repeat map]. now f_equal.
Qed.
(** Every stored result is the outcome of one call of extract() on the extracter with its
    uncertainty and the baseline it had before the run, and that baseline is unchanged. *)
Theorem C220_run :
  forall (s : stab) errs s' b,
    nth_error (Stability.s_bases s) (Stability.p_base (Stability.s_ppe s)) = Some (Some b) ->
    (forall e, In e errs -> sound (with_uncertainty s b e) /\ undisturbed (with_uncertainty s b e)) ->
    run s errs = (s', Ok tt) ->
    nth_error (Stability.s_bases s') (Stability.p_base (Stability.s_ppe s')) = Some (Some b) /\
    length (Stability.s_results s') = length errs /\
    forall k e, nth_error errs k = Some e -> exists x c d,
      pdf_extract fuel (with_uncertainty s b e) = (x, Some (Ok tt)) /\ p_extracted x = Some c /\ spacing c = Ok d /\
      StabilityProps.stored s' k = Some (e, Some (c_model c), Some (c_base c), d).
Proof.
  intros s errs s' b BB HS H. destruct (StabilityProps.C65_run _ _ s errs s' (Some b) BB H) as (L & (outs & b' & XS & BE & ST) & _).
  assert (ONE : forall e b1 m own c, In e errs -> do_pdf T enc dec owner static set_owner ripples tfunc fuel (StabilityProps.at_error s e) (Some b) = (b1, Ok (m, own, c)) ->
    b1 = Some b /\ m = c_model c /\ (match own with Some o => o | None => Some b end) = c_base c /\
    exists x, pdf_extract fuel (with_uncertainty s b e) = (x, Some (Ok tt)) /\ p_extracted x = Some c).
  { intros e b1 m own c I E. destruct (HS e I) as [SD UD]. unfold do_pdf in E. rewrite extracter_at in E. cbv zeta in E.
    destruct (PdfExtract.pdf_extract T enc owner static set_owner ripples tfunc fuel (with_uncertainty s b e)) as [x o] eqn:EX.
    pose proof (baseline_kept _ _ _ _ SD UD EX) as HB. change (p_bl (with_uncertainty s b e)) with b in HB. rewrite HB in E.
    destruct o as [[[]|]|]; [|discriminate|discriminate]. destruct (p_extracted x) as [c0|] eqn:EC; [|discriminate].
    injection E as <- <- <- <-. split; [reflexivity|]. split; [reflexivity|]. split; [|exists x; auto].
    destruct UD as [FN|NP].
    - destruct SD as (SN & U & QP & SP & RV). destruct (C215_extract_leaves_baseline_alone T enc owner static set_owner ripples tfunc fuel _ _ _ SN U QP SP RV FN EX) as [_ HF].
      change (clearcalc (with_uncertainty s b e)) with (with_uncertainty s b e) in HF. now rewrite HF.
    - destruct (PdfExtract.owned T enc owner static set_owner ripples tfunc fuel (with_uncertainty s b e)) as [u []]; [|reflexivity]. cbn [snd].
      destruct (fixed_kept fuel _ SD NP) as [_ HM]. change (p_bl (with_uncertainty s b e)) with b in HM. symmetry. apply HM.
      unfold PdfExtract.pdf_extract in EX. cbv zeta in EX. change (clearcalc (with_uncertainty s b e)) with (with_uncertainty s b e) in EX.
      destruct (model_of fuel (with_uncertainty s b e)) as [[c1|]|]; injection EX as <-; try discriminate. cbn [with_result p_extracted] in EC. now injection EC as <-. }
  assert (G : forall b0, StabilityProps.extractions (do_pdf T enc dec owner static set_owner ripples tfunc fuel) spacing s b0 errs outs b' -> b0 = Some b ->
    b' = Some b /\ forall k e, nth_error errs k = Some e -> exists x c d own,
      pdf_extract fuel (with_uncertainty s b e) = (x, Some (Ok tt)) /\ p_extracted x = Some c /\ spacing c = Ok d /\
      nth_error outs k = Some (e, c_model c, own, d) /\ match own with Some o => o | None => Some b end = c_base c).
  { clear XS BE ST H HS L. intros b0 XS. induction XS as [b0|b0 e errs b1 m own c d outs b' E1 E2 XS IH]; intros ->; [split; [reflexivity|intros [|k] e; discriminate]|].
    destruct (ONE e b1 m own c (or_introl eq_refl) E1) as (-> & -> & HO & x & EX & EC).
    destruct (IH ltac:(intros; eapply ONE; [right; eassumption|eassumption]) eq_refl) as [-> IHk]. split; [reflexivity|].
    intros [|k] e' E; cbn [nth_error] in *; [injection E as <-; exists x, c, d, own; auto|]. now apply IHk. }
  destruct (G (Some b) XS eq_refl) as [-> GK]. split; [exact BE|]. split; [exact L|].
  intros k e E. destruct (GK k e E) as (x & c & d & own & EX & EC & ED & EO & HO). exists x, c, d. split; [exact EX|]. split; [exact EC|]. split; [exact ED|].
  rewrite (ST k e _ own d EO). now rewrite HO.
Qed.

Lemma run_frame errs : forall s : stab, let s' := fst (Stability.run_all (do_pdf T enc dec owner static set_owner ripples tfunc fuel) spacing s errs) in
  Stability.p_rest (Stability.s_ppe s') = Stability.p_rest (Stability.s_ppe s) /\ Stability.p_x (Stability.s_ppe s') = Stability.p_x (Stability.s_ppe s).
Proof.
  induction errs as [|e errs IH]; intros s; cbn [Stability.run_all]; [split; reflexivity|].
  assert (ONE : Stability.p_rest (Stability.s_ppe (fst (Stability.run_one (do_pdf T enc dec owner static set_owner ripples tfunc fuel) spacing s e))) = Stability.p_rest (Stability.s_ppe s) /\
    Stability.p_x (Stability.s_ppe (fst (Stability.run_one (do_pdf T enc dec owner static set_owner ripples tfunc fuel) spacing s e))) = Stability.p_x (Stability.s_ppe s)).
  { unfold Stability.run_one. destruct (nth_error _ _) as [ct|]; [|split; reflexivity]. destruct (do_pdf _ _ _ _ _ _ _ _ _ _ _) as [ct' [[[m own] c]|]]; [|split; reflexivity].
    destruct (spacing c); split; reflexivity. }
  destruct (Stability.run_one _ _ s e) as [s1 [u|x]]; cbn [fst] in ONE; [|exact ONE]. destruct (IH s1) as [I1 I2]. split; [rewrite I1|rewrite I2]; apply ONE.
Qed.
(** Whatever was run before, with whatever uncertainties, and at whatever place of the list an
    uncertainty stands: its stored result is the same. *)
Theorem C220_history :
  forall (s : stab) before s0 errs s1 errs' s2 b,
    nth_error (Stability.s_bases s) (Stability.p_base (Stability.s_ppe s)) = Some (Some b) ->
    (forall e, In e (before ++ errs ++ errs') -> sound (with_uncertainty s b e) /\ undisturbed (with_uncertainty s b e)) ->
    run s before = (s0, Ok tt) -> run s0 errs = (s1, Ok tt) -> run s errs' = (s2, Ok tt) ->
    forall i j e, nth_error errs i = Some e -> nth_error errs' j = Some e -> StabilityProps.stored s1 i = StabilityProps.stored s2 j.
Proof.
  intros s before s0 errs s1 errs' s2 b BB HS R0 R1 R2 i j e Ei Ej.
  assert (W : forall u, with_uncertainty s0 b u = with_uncertainty s b u).
  { intros u. unfold Stability.run in R0. pose proof (run_frame before (Stability.mkStab (Stability.s_models s) (Stability.s_bases s) [] (Stability.s_ppe s) (Stability.s_current s))) as F.
    cbv zeta in F. rewrite R0 in F. cbn [fst Stability.s_ppe] in F. destruct F as [F1 F2]. unfold with_uncertainty. now rewrite F1, F2. }
  destruct (C220_run s before s0 b BB ltac:(intros; apply HS; apply in_or_app; now left) R0) as (B0 & _).
  destruct (C220_run s0 errs s1 b B0 ltac:(intros; rewrite W; apply HS; apply in_or_app; right; apply in_or_app; now left) R1) as (_ & _ & K1).
  destruct (C220_run s errs' s2 b BB ltac:(intros; apply HS; apply in_or_app; right; apply in_or_app; now right) R2) as (_ & _ & K2).
  destruct (K1 i e Ei) as (x & c & d & EX & EC & ED & ->), (K2 j e Ej) as (x' & c' & d' & EX' & EC' & ED' & ->).
  rewrite W in EX. assert (x' = x) as -> by congruence. assert (c' = c) as -> by congruence. congruence.
Qed.
End Pdf.

(** ** The hypotheses are met *)
(** With the optimiser that lifts a free baseline by one: data whose second point is the
    highest, uncertainties 1 and 2; and with a baseline without free parameters, data whose
    first point is the highest. *)
Definition pstab (y : list Z) : @Stability.stab xpeak Z nat (@pdf xpeak Z) :=
  Stability.mkStab [] [Some 0] [] (Stability.mkPpe hx [] None 0 [7%nat] 0 (hpdf y 1 0)) None.
Lemma pstab_at y u : with_uncertainty IZR (pstab y) 0 u = hpdf y u 0.
Proof. reflexivity. Qed.
Definition prun (y : list Z) := Stability.run (do_pdf (btools 1) Int_part IZR (fun _ => 7%nat) (fun _ => false) (fun p _ => p) (fun _ => false) S 5) (fun c => Ok (length (r_cluster c))) (pstab y).
Lemma hsound n y u : length y = 3%nat -> 0 <= u -> sound (btools n) Int_part (hpdf y u 0).
Proof.
  intros L U. split; [apply bsane|]. split; [apply husable; assumption|]. split; [apply Rle_refl|]. split; [cbn [hpdf p_data hdata d_supersample]; lra|]. now apply hresolves.
Qed.
Lemma pdo_eq y e b' o c : length y = 3%nat -> 0 <= e -> hmodel y e 0 = Some (Ok c) -> howned y e 0 = (b', o) ->
  do_pdf (btools 1) Int_part IZR (fun _ => 7%nat) (fun _ => false) (fun p _ => p) (fun _ => false) S 5 (StabilityProps.at_error (pstab y) e) (Some 0) =
  (Some b', Ok (c_model c, if o then None else Some (c_base c), c)).
Proof.
  intros L U EM EO. unfold do_pdf. rewrite (extracter_at IZR (pstab y) 0 e), pstab_at. cbv zeta.
  pose proof (hextract_eq y e 0 L U) as EX. unfold hextract in EX. rewrite EX, EM. rewrite (howned_eq y e 0 L U : PdfExtract.owned _ _ _ _ _ _ _ _ (hpdf y e 0) = _), EO.
  reflexivity.
Qed.
Lemma prun_one y e c (s : Stability.stab) : length y = 3%nat -> 0 <= e -> hmodel y e 0 = Some (Ok c) -> howned y e 0 = (0, false) ->
  StabilityProps.at_error s e = StabilityProps.at_error (pstab y) e -> hd None (Stability.s_bases s) = Some 0 ->
  Stability.run_one (do_pdf (btools 1) Int_part IZR (fun _ => 7%nat) (fun _ => false) (fun p _ => p) (fun _ => false) S 5) (fun c => Ok (length (r_cluster c))) s e =
  (Stability.mkStab (Stability.s_models s ++ [c_model c]) (Stability.s_bases s ++ [c_base c])
     (Stability.s_results s ++ [Stability.mkRes e (length (Stability.s_models s)) (length (Stability.s_bases s)) (length (r_cluster c))])
     (Stability.set_ext (StabilityProps.at_error (pstab y) e) (Some (Stability.mkEx (length (Stability.s_models s)) (length (Stability.s_bases s)) c))) (Stability.s_current s), Ok tt).
Proof.
  intros L U EM EO EA HB. unfold Stability.run_one. change (Stability.set_edy (Stability.set_ext (Stability.s_ppe s) None) e) with (StabilityProps.at_error s e). rewrite EA.
  change (Stability.p_base (StabilityProps.at_error (pstab y) e)) with 0%nat. destruct (Stability.s_bases s) as [|b0 bs]; [discriminate|]. cbn [hd] in HB. subst b0. cbn [nth_error upd].
  rewrite (pdo_eq y e 0 false c L U EM EO). reflexivity.
Qed.
Definition pm (e : Z) : list xpeak * option Z * nat :=
  match hmodel [1; 8; 5] e 0 with Some (Ok c) => (c_model c, c_base c, length (r_cluster c)) | _ => ([], None, 0%nat) end.
Example C220_nonvacuous :
  (forall e, In e [1; 2] -> sound (btools 1) Int_part (with_uncertainty IZR (pstab [1; 8; 5]) 0 e) /\ undisturbed (btools 1) Int_part (with_uncertainty IZR (pstab [1; 8; 5]) 0 e)) /\
  (exists s', prun [1; 8; 5] [1; 2] = (s', Ok tt) /\
     StabilityProps.stored s' 0 = Some (1, Some (fst (fst (pm 1))), Some (Some 2), 3%nat) /\ StabilityProps.stored s' 1 = Some (2, Some (fst (fst (pm 2))), Some (Some 2), 3%nat)) /\
  (fst (fst (pm 1)) <> [])  /\
  (* a baseline without free parameters, the first point the highest *)
  undisturbed (btools 0) Int_part (with_uncertainty IZR (pstab [20; 4; 12]) 0 1) /\ ~ first_not_highest (btools 0) Int_part (with_uncertainty IZR (pstab [20; 4; 12]) 0 1).
Proof.
  split; [|split; [|split; [|split]]].
  - intros e I. assert (U : 0 <= e) by (destruct I as [<-|[<-|[]]]; lia). rewrite pstab_at. split; [now apply hsound|]. left.
    intros r y e0 E. change (p_data (hpdf [1; 8; 5] e 0)) with (hdata [1; 8; 5] e) in E. rewrite (hgrid [1; 8; 5] e eq_refl U) in E.
    assert (ER : r = map IZR hx) by congruence. assert (EY : y = map IZR [1; 8; 5]) by congruence. clear E. rewrite ER, EY, !int_parts. exists 1%nat. split; [rewrite map_length; cbn; lia|]. vm_compute. reflexivity.
  - assert (M1 : exists c, hmodel [1; 8; 5] 1 0 = Some (Ok c) /\ c_model c = fst (fst (pm 1)) /\ c_base c = Some 2 /\ length (r_cluster c) = 3%nat) by (eexists; split; [vm_compute; reflexivity|]; vm_compute; auto).
    assert (M2 : exists c, hmodel [1; 8; 5] 2 0 = Some (Ok c) /\ c_model c = fst (fst (pm 2)) /\ c_base c = Some 2 /\ length (r_cluster c) = 3%nat) by (eexists; split; [vm_compute; reflexivity|]; vm_compute; auto).
    assert (O1 : howned [1; 8; 5] 1 0 = (0, false)) by (vm_compute; reflexivity). assert (O2 : howned [1; 8; 5] 2 0 = (0, false)) by (vm_compute; reflexivity).
    destruct M1 as (c1 & M1 & <- & B1 & L1), M2 as (c2 & M2 & <- & B2 & L2).
    unfold prun, Stability.run. cbn [Stability.run_all].
    match goal with |- context [Stability.run_one _ _ ?s 1] => rewrite (prun_one [1; 8; 5] 1 c1 s eq_refl ltac:(lia) M1 O1 eq_refl eq_refl) end. cbn [Stability.run_all].
    match goal with |- context [Stability.run_one _ _ ?s 2] => rewrite (prun_one [1; 8; 5] 2 c2 s eq_refl ltac:(lia) M2 O2 eq_refl eq_refl) end.
    eexists. split; [reflexivity|]. unfold StabilityProps.stored. cbn [pstab Stability.s_results Stability.s_models Stability.s_bases app nth_error option_map length Stability.r_err Stability.r_model Stability.r_base Stability.r_dr].
    rewrite B1, B2, L1, L2. split; reflexivity.
  - vm_compute. discriminate.
  - right. reflexivity.
  - rewrite pstab_at. intros F. specialize (F (map IZR hx) (map IZR [20; 4; 12]) (map IZR (he 1)) (hgrid [20; 4; 12] 1 eq_refl ltac:(lia))). rewrite !int_parts in F.
    destruct F as (i & L & F). rewrite map_length in L. destruct i as [|[|[|i]]]; [vm_compute in F; discriminate..|cbn in L; lia].
Qed.

Print Assumptions C220_extract_again.
Print Assumptions C220_run.
Print Assumptions C220_history.

(** Properties C57 (classes), C58 (queries), C59 (dg_key), C60 (rescaled criterion),
    C61 (classbestdgs), C62 (get). *)
From Coq Require Import Reals Lra String Sorted Permutation.
From Verif Require Import Prelude Evaluators EvaluatorsProps MultiModel MultiModelProofs MultiModelClass.
Open Scope R_scope.

(** *** Specification vocabulary *)
(** What is assumed of np.argsort: a permutation of the indices, values ascending. *)
Definition argsort_ok (argsort : list R -> list nat) : Prop :=
  forall l, Permutation (argsort l) (seq 0 (length l)) /\ StronglySorted (fun i j => nth i l 0 <= nth j l 0) (argsort l).
(** The criterion of the i-th model at uncertainty dg. *)
Definition model_aic (em : method) (ms : list model) (dg : R) (i : nat) : R :=
  match nth_error ms i with Some m => aic_value em m dg | None => 0 end.
(** The criterion of a class: the best (smallest) one of its members. *)
Definition class_aic (em : method) (ms : list model) (dg : R) (c : list nat) : R :=
  match c with [] => 0 | i :: r => list_min (model_aic em ms dg i) (map (model_aic em ms dg) r) end.
Definition usable (em : method) (s0 : mms) (gs r : list R) : Prop :=
  (em = AIC \/ em = AICc) /\ results s0 <> [] /\ gs <> [] /\ NoDup gs /\ (forall g, In g gs -> g <> 0) /\ (forall m, In m (results s0) -> on_grid r m).
(** [s] is the object after makeaics(gs) and classify(r, tol). *)
Definition prepared (argsort : list R -> list nat) (em : method) (s0 : mms) (gs r : list R) (tol : R) (s : mms) : Prop :=
  usable em s0 gs r /\ exists s1, makeaics argsort em s0 gs = Ok s1 /\ classify argsort s1 r tol = Ok s.

Section Props.
Variable argsort : list R -> list nat.
Variable em : method.

(** ** C60 *)
(** Every entry of the table is the criterion computed from the residuals with that very
    uncertainty (aic_value, chi2: MultiModelProofs.v), one entry per model. *)
Theorem C60_rescaled_equals_direct :
  forall (s0 : mms) (gs : list R),
    em = AIC \/ em = AICc -> results s0 <> [] -> gs <> [] -> NoDup gs -> (forall g, In g gs -> g <> 0) ->
    exists s, makeaics argsort em s0 gs = Ok s /\ dgs s = gs /\ results s = results s0 /\
      forall g, In g gs -> exists es, aics s g = Some es /\ length es = length (results s0) /\
        (forall i m, nth_error (results s0) i = Some m -> exists e, nth_error es i = Some e /\
           stat e = Some (Rsum (map (fun p => ((fst p - snd p) / g) ^ 2) (m_points m)) + penalty em m) /\
           (* the evaluator obtained by evaluating a cluster with uncertainty g directly *)
           evaluate (new_evaluator em false) (cluster_fit m g) false 0 = (e, Ok (aic_value em m g))).
Proof.
  intros s0 gs HM HR HG ND NZ. unfold makeaics.
  destruct (test_models_spec em gs HM HG ND NZ (results s0) (init_aics gs (aics s0))) as (d & -> & H1 & H2).
  { intros g I. destruct (init_spec gs (aics s0)) as [A _]. rewrite A by exact I. discriminate. }
  assert (D : forall g, In g gs -> d g = Some (map (aic_entry em g) (results s0))).
  { intros g I. destruct (init_spec gs (aics s0)) as [A _]. rewrite (H1 g [] I (A g I)). reflexivity. }
  cbn [bind]. assert (NE : forall g, map (fun m => aic_value em m g) (results s0) <> []) by (intros g; destruct (results s0); [contradiction|discriminate]).
  destruct (tabulate_ok (fun dg => do l <- dget d dg; do s <- stats l; akaikeweights s) gs dempty) as (w & W).
  { intros g I. unfold dget. rewrite D by exact I. cbn [bind]. rewrite stats_entries. cbn [bind]. destruct (C36_weights _ (NE g)) as (x & m & E & _). eauto. }
  unfold makeaicweights. rewrite W. cbn [bind].
  destruct (tabulate_ok (fun dg => do l <- dget d dg; do s <- stats l; akaikeprobs s) gs dempty) as (p & P).
  { intros g I. unfold dget. rewrite D by exact I. cbn [bind]. rewrite stats_entries. cbn [bind]. destruct (C36_probabilities _ (NE g)) as (x & E & _). eauto. }
  unfold makeaicprobs. rewrite P. cbn [bind].
  destruct (tabulate_ok (fun dg => do l <- dget p dg; Ok (argsort l)) gs dempty) as (sp & SP).
  { intros g I. destruct (tabulate_spec _ _ _ _ P) as [A _]. destruct (A g I) as (v & _ & V). unfold dget. rewrite V. cbn [bind]. eauto. }
  unfold makesortedprobs. rewrite SP. cbn [bind]. eexists. split; [reflexivity|]. split; [reflexivity|]. split; [reflexivity|].
  intros g I. cbn [MultiModel.aics]. exists (map (aic_entry em g) (results s0)). split; [now apply D|]. split; [apply map_length|].
  intros i m Hi. exists (aic_entry em g m). split; [rewrite nth_error_map, Hi; reflexivity|]. split; [reflexivity|]. rewrite eval_new by (auto; now apply NZ). reflexivity.
Qed.

(** Repeated uncertainties: each model is entered once per occurrence, so the list for
    that uncertainty no longer matches the models. *)
Theorem C60_repeated_uncertainty_refuted :
  forall (s0 : mms) (g : R), em = AIC \/ em = AICc -> results s0 <> [] -> g <> 0 ->
    exists s es, makeaics argsort em s0 [g; g] = Ok s /\ aics s g = Some es /\ length es = (2 * length (results s0))%nat.
Proof.
  intros s0 g HM HR HG. unfold makeaics.
  assert (T : forall ms d l, d g = Some l -> (forall e, In e l -> stat e <> None) -> exists d' l', test_models em ms [g; g] d = Ok d' /\ d' g = Some l' /\ length l' = (length l + 2 * length ms)%nat /\ (forall e, In e l' -> stat e <> None)).
  { induction ms as [|m ms IH]; intros d l Dg HL; cbn [test_models].
    - exists d, l. split; [reflexivity|]. split; [exact Dg|]. split; [cbn; lia|exact HL].
    - change (pyget [g; g] 0) with (@Ok R g). cbn [bind]. rewrite eval_new by assumption. cbn [bind chisq rescale_all]. rewrite !eval_pen by exact HM. cbn [bind]. unfold dappend at 1. unfold dget. rewrite Dg. cbn [bind].
      unfold dappend, dget. rewrite dset_same. cbn [bind].
      destruct (IH (dset (dset d g (l ++ [mkEv em false (Some (chi2 m g * (g / g) ^ 2 + penalty em m)) (Some (chi2 m g * (g / g) ^ 2))])) g
        ((l ++ [mkEv em false (Some (chi2 m g * (g / g) ^ 2 + penalty em m)) (Some (chi2 m g * (g / g) ^ 2))]) ++ [mkEv em false (Some (chi2 m g * (g / g) ^ 2 + penalty em m)) (Some (chi2 m g * (g / g) ^ 2))])) _ (dset_same _ _ _)) as (d' & l' & E & A & B & C).
      + intros e He. rewrite !in_app_iff in He. cbn in He. destruct He as [[He|[<-|[]]]|[<-|[]]]; [auto|discriminate|discriminate].
      + exists d', l'. split; [exact E|]. split; [exact A|]. split; [|exact C]. rewrite B, !app_length. cbn [length]. lia. }
  destruct (T (results s0) (init_aics [g; g] (aics s0)) []) as (d & es & -> & D & LE & SE).
  { destruct (init_spec [g; g] (aics s0)) as [A _]. apply A. now left. }
  { intros ? []. }
  cbn [bind]. set (st := map (fun e => match stat e with Some s => s | None => 0 end) es).
  assert (ST : stats es = Ok st).
  { unfold stats, st. apply map_result_ok. intros e He. specialize (SE e He). destruct (stat e); [reflexivity|contradiction]. }
  assert (NE : st <> []) by (unfold st; destruct es; [destruct (results s0); [contradiction|cbn in LE; lia]|discriminate]).
  destruct (C36_weights st NE) as (w & mw & EW & _). destruct (C36_probabilities st NE) as (p & EP & _).
  unfold makeaicweights, makeaicprobs, makesortedprobs. cbn [tabulate]. unfold dget. rewrite D. cbn [bind]. rewrite ST. cbn [bind]. rewrite EW, EP. cbn [bind].
  rewrite dset_same. cbn [bind]. eexists _, es. split; [reflexivity|]. split; [exact D|]. cbn [length] in LE. lia.
Qed.

(** ** What the tables contain *)
Hypothesis AOK : argsort_ok argsort.
Definition worse (ms : list model) (g : R) (i j : nat) : Prop :=
  forall m m', nth_error ms i = Some m -> nth_error ms j = Some m' -> aic_value em m' g <= aic_value em m g.
Record tables (ms : list model) (gs r : list R) (tol : R) (s : mms) : Prop := {
  t_dgs : dgs s = gs;
  t_res : results s = ms;
  t_cls : exists cs, classes s = map members cs /\ inv ms r tol (length ms) cs (classes_idx s);
  t_aics : forall g, In g gs -> aics s g = Some (map (aic_entry em g) ms);
  t_probs : forall g, In g gs -> exists p, akaikeprobs (map (fun m => aic_value em m g) ms) = Ok p /\ aicprobs s g = Some p /\ sortedprobs s g = Some (argsort p);
  t_cprobs : forall g, In g gs -> exists sc cp, sortedclasses s g = Some sc /\
     Forall2 (fun c l => Permutation l c /\ StronglySorted (worse ms g) l) (classes s) sc /\
     akaikeprobs (map (class_aic em ms g) (classes s)) = Ok cp /\ classprobs s g = Some cp /\ sortedclassprobs s g = Some (argsort cp);
  t_none : forall g, ~ In g gs -> sortedprobs s g = None /\ sortedclasses s g = None /\ sortedclassprobs s g = None /\ aicprobs s g = None /\ classprobs s g = None }.

Lemma list_min_unique a l v : In v (a :: l) -> (forall w, In w (a :: l) -> v <= w) -> list_min a l = v.
Proof.
  intros H1 H2. destruct (list_min_le l a) as [M1 M2]. pose proof (list_min_in l a) as MI.
  assert (list_min a l <= v) by (destruct H1 as [<-|H1]; auto). pose proof (H2 _ MI). lra.
Qed.
Lemma class_aic_last ms g c l i : (forall j, In j c -> (j < length ms)%nat) -> Permutation l c -> StronglySorted (worse ms g) l ->
  nth_error l (length l - 1) = Some i -> model_aic em ms g i = class_aic em ms g c.
Proof.
  intros HC HP HS HN. assert (NE : l <> []) by (intros ->; discriminate).
  destruct (nth_error_split _ _ HN) as (l1 & l2 & E & L1).
  assert (l2 = []) by (destruct l2; [reflexivity|]; rewrite E in L1; rewrite app_length in L1; cbn in L1; lia). subst l2.
  assert (IC : In i c) by (apply (Permutation_in _ HP); rewrite E; apply in_or_app; right; now left).
  assert (MIN : forall j, In j c -> model_aic em ms g i <= model_aic em ms g j).
  { intros j Hj. assert (IL : In j l) by (apply (Permutation_in _ (Permutation_sym HP)); exact Hj).
    rewrite E in IL. apply in_app_or in IL as [IL|[<-|[]]]; [|lra].
    rewrite E in HS. pose proof (ss_app _ _ _ HS j i IL (or_introl eq_refl)) as W. unfold worse in W. unfold model_aic.
    pose proof (HC _ Hj). pose proof (HC _ IC). destruct (nth_error ms i) eqn:Ni; [|apply nth_error_None in Ni; lia]. destruct (nth_error ms j) eqn:Nj; [|apply nth_error_None in Nj; lia]. now apply W. }
  destruct c as [|a c]; [destruct IC|]. cbn [class_aic]. symmetry. apply list_min_unique.
  - change (In (model_aic em ms g i) (map (model_aic em ms g) (a :: c))). now apply in_map.
  - change (forall w, In w (map (model_aic em ms g) (a :: c)) -> model_aic em ms g i <= w). intros w Hw. apply in_map_iff in Hw as (j & <- & Hj). now apply MIN.
Qed.
Lemma map_aic ms g : map (fun m => aic_value em m g) ms = map (model_aic em ms g) (seq 0 (length ms)).
Proof.
  unfold model_aic. assert (G : forall pre, map (fun m => aic_value em m g) ms = map (fun i => match nth_error (pre ++ ms) i with Some m => aic_value em m g | None => 0 end) (seq (length pre) (length ms))).
  { induction ms as [|m l IH]; intros pre; [reflexivity|]. cbn [map length seq]. f_equal.
    - rewrite nth_error_app2, Nat.sub_diag by lia. reflexivity.
    - rewrite (IH (pre ++ [m])). rewrite app_length. cbn [length]. rewrite Nat.add_1_r. apply map_ext. intros i. rewrite <- app_assoc. reflexivity. }
  exact (G []).
Qed.

Lemma inv_members ms r tol cs idx k c : inv ms r tol (length ms) cs idx -> nth_error cs k = Some c -> forall j, In j (members c) -> (j < length ms)%nat.
Proof. intros H HK j Hj. eapply inv_lt; eauto. Qed.

Lemma prepare_tables s0 gs r tol : usable em s0 gs r ->
  exists s, prepared argsort em s0 gs r tol s /\ tables (results s0) gs r tol s.
Proof.
  intros U. pose proof U as (HM & HR & HG & ND & NZ & GR). set (ms := results s0) in *.
  destruct (C60_rescaled_equals_direct s0 gs HM HR HG ND NZ) as (s1 & E1 & D1 & R1 & _).
  (* the first stage again, to read off its tables *)
  pose proof E1 as E1'. unfold makeaics in E1'.
  destruct (test_models_spec em gs HM HG ND NZ (results s0) (init_aics gs (aics s0))) as (d & ET & H1 & H2).
  { intros g I. destruct (init_spec gs (aics s0)) as [A _]. rewrite A by exact I. discriminate. }
  assert (D : forall g, In g gs -> d g = Some (map (aic_entry em g) ms)).
  { intros g I. destruct (init_spec gs (aics s0)) as [A _]. rewrite (H1 g [] I (A g I)). reflexivity. }
  rewrite ET in E1'. cbn [bind] in E1'.
  destruct (makeaicweights gs d) as [w|] eqn:EW; cbn [bind] in E1'; [|discriminate].
  destruct (makeaicprobs gs d) as [p|] eqn:EP; cbn [bind] in E1'; [|discriminate].
  destruct (makesortedprobs argsort gs p) as [sp|] eqn:ESP; cbn [bind] in E1'; [|discriminate]. injection E1' as E1'.
  destruct (tabulate_spec _ _ _ _ EP) as [P1 P2]. destruct (tabulate_spec _ _ _ _ ESP) as [Q1 Q2].
  destruct (classify_inv ms r tol GR) as (cs & idx & EC & IV).
  assert (A1 : aics s1 = d) by (rewrite <- E1'; reflexivity).
  assert (CM : forall c, In c (map members cs) -> c <> [] /\ forall j, In j c -> (j < length ms)%nat).
  { intros c Hc. apply in_map_iff in Hc as (x & <- & Hx). apply In_nth_error in Hx as (k & Hk). split.
    - destruct (inv_ex _ _ _ _ _ _ IV k x Hk) as (i0 & rest & ex & -> & _). discriminate.
    - eapply inv_members; eauto. }
  destruct (tabulate_ok (fun dg => map_result (fun c => do l <- dget d dg; sort_class l c) (map members cs)) gs dempty) as (sc & ESC).
  { intros g I. unfold dget. rewrite D by exact I. cbn [bind]. clear - CM. induction (map members cs) as [|c l IH]; [cbn; eauto|].
    cbn [map_result]. destruct (sort_class_spec em g ms c) as (x & -> & _); [apply CM; now left|]. cbn [bind].
    destruct IH as (v & ->); [intros; apply CM; now right|]. cbn [bind]. eauto. }
  destruct (tabulate_spec _ _ _ _ ESC) as [SC1 SC2].
  assert (SCF : forall g, In g gs -> exists v, sc g = Some v /\ Forall2 (fun c l => Permutation l c /\ StronglySorted (worse ms g) l) (map members cs) v).
  { intros g I. destruct (SC1 g I) as (v & E & V). exists v. split; [exact V|]. apply map_result_inv in E. clear - E CM D I. revert E CM. generalize (map members cs). induction 1 as [|c l cl ll E _ IH]; intros CM; constructor.
    - unfold dget in E. rewrite D in E by exact I. cbn [bind] in E. destruct (sort_class_spec em g ms c) as (x & X1 & X2 & X3); [apply CM; now left|]. rewrite X1 in E. injection E as <-. auto.
    - apply IH. intros; apply CM; now right. }
  assert (BS : forall g, In g gs -> best_stats d sc g = Ok (map (class_aic em ms g) (map members cs))).
  { intros g I. unfold best_stats, dget. destruct (SCF g I) as (v & -> & F). cbn [bind]. rewrite D by exact I.
    assert (B : exists best, map_result (fun c => pyget c (-1)) v = Ok best /\ (forall b, In b best -> (b < length ms)%nat) /\ map (model_aic em ms g) best = map (class_aic em ms g) (map members cs)).
    { clear - F CM. induction F as [|c l cl ll [F1 F2] _ IH]; [exists []; cbn; split; [reflexivity|]; split; [intros ? []|reflexivity]|].
      destruct IH as (best & B1 & B2 & B3); [intros; apply CM; now right|]. destruct (CM c (or_introl eq_refl)) as [N C1].
      assert (L : (0 < length l)%nat) by (rewrite (Permutation_length F1); destruct c; [contradiction|cbn; lia]).
      cbn [map_result]. change (pyget l (-1)) with (pyget l (-1 - Z.of_nat 0)). rewrite pyget_end. destruct (Nat.ltb_spec 0 (length l)); [|lia]. rewrite Nat.sub_0_r.
      destruct (nth_error l (length l - 1)) as [b|] eqn:NB; [|apply nth_error_None in NB; lia]. cbn [bind]. rewrite B1. cbn [bind]. exists (b :: best). split; [reflexivity|].
      assert (IB : In b c) by (apply (Permutation_in _ F1); eapply nth_error_In; exact NB). split.
      - intros x [<-|X]; auto.
      - cbn [map]. rewrite B3. f_equal. eapply class_aic_last; eauto. }
    destruct B as (best & -> & B2 & B3). cbn [bind].
    rewrite (map_result_ok _ (fun b => nth b (map (aic_entry em g) ms) (mkEv em false None None))).
    2:{ intros b Hb. apply pyget_nth, nth_error_nth'. rewrite map_length. auto. }
    cbn [bind]. unfold stats. rewrite <- B3. clear B3.
    induction best as [|b best IH]; [reflexivity|]. cbn [map map_result]. rewrite IH by (intros; apply B2; now right).
    assert (Lb : (b < length ms)%nat) by (apply B2; now left). destruct (nth_error ms b) as [m|] eqn:NM; [|apply nth_error_None in NM; lia].
    assert (X : nth b (map (aic_entry em g) ms) (mkEv em false None None) = aic_entry em g m) by (apply nth_error_nth; rewrite nth_error_map, NM; reflexivity).
    rewrite X. cbn [aic_entry stat bind]. unfold model_aic at 2. rewrite NM. reflexivity. }
  assert (NEC : forall g, map (class_aic em ms g) (map members cs) <> []).
  { intros g. assert (cs <> []).
    { intros ->. pose proof (inv_perm _ _ _ _ _ _ IV) as P. cbn in P. apply Permutation_nil in P. destruct ms; [contradiction|discriminate]. }
    destruct cs; [contradiction|discriminate]. }
  destruct (tabulate_ok (fun dg => do s <- best_stats d sc dg; akaikeweights s) gs dempty) as (cw & ECW).
  { intros g I. rewrite BS by exact I. cbn [bind]. destruct (C36_weights _ (NEC g)) as (x & m & E & _). eauto. }
  destruct (tabulate_ok (fun dg => do s <- best_stats d sc dg; akaikeprobs s) gs dempty) as (cp & ECP).
  { intros g I. rewrite BS by exact I. cbn [bind]. destruct (C36_probabilities _ (NEC g)) as (x & E & _). eauto. }
  destruct (tabulate_spec _ _ _ _ ECP) as [CP1 CP2].
  destruct (tabulate_ok (fun dg => do l <- dget cp dg; Ok (argsort l)) gs dempty) as (scp & ESCP).
  { intros g I. destruct (CP1 g I) as (v & _ & V). unfold dget. rewrite V. cbn [bind]. eauto. }
  destruct (tabulate_spec _ _ _ _ ESCP) as [SCP1 SCP2].
  eexists. split.
  { split; [exact U|]. exists s1. split; [exact E1|]. unfold classify. rewrite R1, D1, A1. fold ms. rewrite EC. cbn [bind fst snd].
    unfold makesortedclasses. rewrite ESC. cbn [bind]. unfold makeclassweights. rewrite ECW. cbn [bind]. unfold makeclassprobs. rewrite ECP. cbn [bind]. unfold makesortedprobs. rewrite ESCP. cbn [bind]. reflexivity. }
  rewrite <- E1'. constructor; cbn [dgs results classes classes_idx aics aicprobs sortedprobs sortedclasses classprobs sortedclassprobs].
  - reflexivity.
  - reflexivity.
  - exists cs. auto.
  - exact D.
  - intros g I. destruct (P1 g I) as (v & E & V). exists v. unfold dget in E. rewrite D in E by exact I. cbn [bind] in E. rewrite stats_entries in E. cbn [bind] in E.
    split; [exact E|]. split; [exact V|]. destruct (Q1 g I) as (v' & F & V'). unfold dget in F. rewrite V in F. cbn [bind] in F. injection F as <-. exact V'.
  - intros g I. destruct (SCF g I) as (v & V & F). destruct (CP1 g I) as (v' & E & V'). rewrite BS in E by exact I. cbn [bind] in E. exists v, v'.
    split; [exact V|]. split; [exact F|]. split; [exact E|]. split; [exact V'|]. destruct (SCP1 g I) as (v2 & G & V2). unfold dget in G. rewrite V' in G. cbn [bind] in G. injection G as <-. exact V2.
  - intros g N. rewrite (Q2 g N), (SC2 g N), (SCP2 g N), (P2 g N), (CP2 g N). repeat split; reflexivity.
Qed.
Lemma tables_of s0 gs r tol s : prepared argsort em s0 gs r tol s -> tables (results s0) gs r tol s.
Proof.
  intros [U (s1 & E1 & E2)]. destruct (prepare_tables s0 gs r tol U) as (s' & [_ (s1' & F1 & F2)] & T). rewrite E1 in F1. injection F1 as <-. rewrite E2 in F2. injection F2 as <-. exact T.
Qed.

(** makeaics and classify succeed on every usable input. *)
Theorem C58_preparation_succeeds :
  forall (s0 : mms) (gs r : list R) (tol : R), usable em s0 gs r -> exists s, prepared argsort em s0 gs r tol s.
Proof. intros s0 gs r tol U. destruct (prepare_tables s0 gs r tol U) as (s & P & _). eauto. Qed.

(** ** C57 *)
Theorem C57_classes_partition_the_models :
  forall (s0 : mms) (gs r : list R) (tol : R) (s : mms), prepared argsort em s0 gs r tol s ->
    let ms := results s0 in
    results s = ms /\
    (* every model is in exactly one class; the classes and classes_idx agree *)
    Permutation (concat (classes s)) (seq 0 (length ms)) /\
    (forall i k, classes_idx s i = Some k <-> exists c, nth_error (classes s) k = Some c /\ In i c) /\
    (* a class lists its models in order; its first model is its exemplar *)
    (forall k c, nth_error (classes s) k = Some c -> c <> [] /\ StronglySorted lt c) /\
    (forall k c e rest ex i m, nth_error (classes s) k = Some c -> c = e :: rest -> nth_error ms e = Some ex ->
       In i rest -> nth_error ms i = Some m -> alike tol r m ex) /\
    (* no model matches the exemplar of an earlier class; exemplars never match each other *)
    (forall k c k' e' rest' ex' i m, nth_error (classes s) k = Some c -> nth_error (classes s) k' = Some (e' :: rest') -> (k' < k)%nat ->
       nth_error ms e' = Some ex' -> In i c -> nth_error ms i = Some m -> ~ alike tol r m ex') /\
    (forall k k' e rest e' rest' ex ex', nth_error (classes s) k = Some (e :: rest) -> nth_error (classes s) k' = Some (e' :: rest') -> k <> k' ->
       nth_error ms e = Some ex -> nth_error ms e' = Some ex' -> ~ alike tol r ex ex').
Proof.
  intros s0 gs r tol s P ms. destruct (tables_of _ _ _ _ _ P) as [_ TR (cs & EC & IV) _ _ _ _].
  assert (CN : forall k c, nth_error (classes s) k = Some c -> exists x, nth_error cs k = Some x /\ members x = c).
  { intros k c Hk. rewrite EC, nth_error_map in Hk. destruct (nth_error cs k); [|discriminate]. injection Hk as <-. eauto. }
  assert (UL : forall k c k' e' rest' ex' i m, nth_error (classes s) k = Some c -> nth_error (classes s) k' = Some (e' :: rest') -> (k' < k)%nat ->
       nth_error ms e' = Some ex' -> In i c -> nth_error ms i = Some m -> ~ alike tol r m ex').
  { intros k c k' e' rest' ex' i m Hk Hk' L HE Hi HM. apply CN in Hk as (x & Hx & <-), Hk' as (x' & Hx' & M). eapply (inv_unlike _ _ _ _ _ _ IV k x k' x'); eauto. }
  split; [exact TR|]. split; [rewrite EC; exact (inv_perm _ _ _ _ _ _ IV)|]. split; [|split; [|split; [|split; [exact UL|]]]].
  - intros i k. rewrite (inv_idx _ _ _ _ _ _ IV). split.
    + intros (c & Hc & Hi). exists (members c). rewrite EC, nth_error_map, Hc. auto.
    + intros (c & Hc & Hi). apply CN in Hc as (x & Hx & <-). eauto.
  - intros k c Hk. apply CN in Hk as (x & Hx & <-). split; [|eapply inv_sorted; eauto].
    destruct (inv_ex _ _ _ _ _ _ IV k x Hx) as (i0 & rest & ex & -> & _). discriminate.
  - intros k c e rest ex i m Hk Hc HE Hi HM. apply CN in Hk as (x & Hx & M). subst c. eapply (inv_alike _ _ _ _ _ _ IV k x); eauto.
  - intros k k' e rest e' rest' ex ex' Hk Hk' NE HE HE'. destruct (Nat.lt_trichotomy k k') as [L|[L|L]]; [|contradiction|].
    + intros A. apply alike_sym in A. revert A. eapply (UL k' (e' :: rest') k e rest); eauto. now left.
    + eapply (UL k (e :: rest) k' e' rest'); eauto. now left.
Qed.

(** ** C58 *)
Lemma probs_order {A} (f : A -> R) (l : list A) p : akaikeprobs (map f l) = Ok p -> forall i j x y, nth_error l i = Some x -> nth_error l j = Some y ->
  (nth i p 0 < nth j p 0 <-> - f x < - f y).
Proof.
  intros E i j x y Hi Hj. assert (NE : map f l <> []) by (destruct l; [destruct i; discriminate|discriminate]).
  destruct (C36_probabilities _ NE) as (p' & E' & L & _ & _ & O). rewrite E in E'. injection E' as <-. rewrite map_length in L.
  assert (Li : (i < length p)%nat) by (rewrite L; apply nth_error_Some; congruence). assert (Lj : (j < length p)%nat) by (rewrite L; apply nth_error_Some; congruence).
  destruct (O i j (f x) (f y) (nth i p 0) (nth j p 0)) as (O1 & _).
  - rewrite nth_error_map, Hi. reflexivity.
  - rewrite nth_error_map, Hj. reflexivity.
  - now apply nth_error_nth'.
  - now apply nth_error_nth'.
  - destruct (O j i (f y) (f x) (nth j p 0) (nth i p 0)) as (O2 & _).
    + rewrite nth_error_map, Hj. reflexivity.
    + rewrite nth_error_map, Hi. reflexivity.
    + now apply nth_error_nth'.
    + now apply nth_error_nth'.
    + rewrite <- O2. lra.
Qed.
(** the k-th index from the end of argsort(p) *)
Lemma argsort_kth {A} (f : A -> R) (l : list A) p (score : nat -> R) k : akaikeprobs (map f l) = Ok p ->
  (forall i x, nth_error l i = Some x -> score i = - f x) ->
  if (k <? length l)%nat then exists i, pyget (argsort p) (-1 - Z.of_nat k) = Ok i /\ nth_best score (seq 0 (length l)) k i
  else pyget (argsort p) (-1 - Z.of_nat k) = Err IndexError.
Proof.
  intros E HS. destruct (AOK p) as [P S'].
  assert (L : length p = length l).
  { destruct l as [|a l']; [discriminate|]. destruct (C36_probabilities (map f (a :: l'))) as (p' & E' & L & _); [discriminate|]. rewrite E in E'. injection E' as <-. rewrite map_length in L. exact L. }
  assert (LA : length (argsort p) = length l) by (rewrite (Permutation_length P), seq_length; exact L).
  rewrite pyget_end, LA. destruct (Nat.ltb_spec k (length l)) as [K|K]; [|reflexivity].
  destruct (nth_error (argsort p) (length l - 1 - k)) as [i|] eqn:N; [|apply nth_error_None in N; lia]. exists i. split; [reflexivity|].
  assert (B : nth_best (fun i => nth i p 0) (seq 0 (length l)) k i).
  { eapply kth_from_end_best; [exact S'|rewrite <- L; exact P|lia|rewrite LA; exact N]. }
  revert B. apply nth_best_ext. intros x y Hx Hy. apply in_seq in Hx, Hy.
  destruct (nth_error l x) as [ax|] eqn:Nx; [|apply nth_error_None in Nx; lia]. destruct (nth_error l y) as [ay|] eqn:Ny; [|apply nth_error_None in Ny; lia].
  rewrite (probs_order f l p E x y ax ay Nx Ny), (HS x ax Nx), (HS y ay Ny). reflexivity.
Qed.
Definition class_score (ms : list model) (dg : R) (cs : list (list nat)) (k : nat) : R :=
  - (match nth_error cs k with Some c => class_aic em ms dg c | None => 0 end).

(** get_class: the corder-th best class. *)
Theorem C58_get_class :
  forall (s0 : mms) (gs r : list R) (tol : R) (s : mms) (dg : R) (k : nat) (mo : option Z) (c0 : option (option Z)), prepared argsort em s0 gs r tol s -> In dg gs ->
    ((k < length (classes s))%nat -> exists c, get_class s dg (mkKwds (Some (Z.of_nat k)) mo c0) = Ok c /\
       nth_best (class_score (results s0) dg (classes s)) (seq 0 (length (classes s))) k c) /\
    ((length (classes s) <= k)%nat -> get_class s dg (mkKwds (Some (Z.of_nat k)) mo c0) = Err IndexError) /\
    get_class s dg no_kwds = get_class s dg (mkKwds (Some 0%Z) None None).
Proof.
  intros s0 gs r tol s dg k mo c0 P I. pose proof (tables_of _ _ _ _ _ P) as T. destruct (t_cprobs _ _ _ _ _ T dg I) as (sc & cp & _ & _ & EP & _ & ESP).
  pose proof (argsort_kth (class_aic em (results s0) dg) (classes s) cp (class_score (results s0) dg (classes s)) k EP) as A.
  assert (HS : forall i x, nth_error (classes s) i = Some x -> class_score (results s0) dg (classes s) i = - class_aic em (results s0) dg x) by (intros i x H; unfold class_score; rewrite H; reflexivity).
  specialize (A HS). unfold get_class, dget. rewrite ESP. cbn [bind k_corder order]. split; [|split; [|reflexivity]]; intros L.
  - destruct (Nat.ltb_spec k (length (classes s))); [|lia]. exact A.
  - destruct (Nat.ltb_spec k (length (classes s))); [lia|]. exact A.
Qed.

(** get_model ignoring classes (cls=None): the morder-th best of all models. *)
Theorem C58_get_model_any :
  forall (s0 : mms) (gs r : list R) (tol : R) (s : mms) (dg : R) (k : nat) (co : option Z), prepared argsort em s0 gs r tol s -> In dg gs ->
    let n := length (results s0) in
    ((k < n)%nat -> exists i, get_model s dg (mkKwds co (Some (Z.of_nat k)) (Some None)) = Ok i /\
       nth_best (fun j => - model_aic em (results s0) dg j) (seq 0 n) k i) /\
    ((n <= k)%nat -> get_model s dg (mkKwds co (Some (Z.of_nat k)) (Some None)) = Err IndexError).
Proof.
  intros s0 gs r tol s dg k co P I n. pose proof (tables_of _ _ _ _ _ P) as T. destruct (t_probs _ _ _ _ _ T dg I) as (p & EP & _ & ESP).
  pose proof (argsort_kth (fun m => aic_value em m dg) (results s0) p (fun j => - model_aic em (results s0) dg j) k EP) as A.
  assert (HS : forall i x, nth_error (results s0) i = Some x -> - model_aic em (results s0) dg i = - aic_value em x dg) by (intros i x H; unfold model_aic; rewrite H; reflexivity).
  specialize (A HS). unfold get_model, dget. cbn [k_cls bind k_morder order]. rewrite ESP. cbn [bind]. fold n in A. split; intros L.
  - destruct (Nat.ltb_spec k n); [|lia]. exact A.
  - destruct (Nat.ltb_spec k n); [lia|]. exact A.
Qed.

Lemma sorted_class_kth s0 gs r tol s dg c cl k : prepared argsort em s0 gs r tol s -> In dg gs -> nth_error (classes s) c = Some cl ->
  exists sc l, sortedclasses s dg = Some sc /\ nth_error sc c = Some l /\ length l = length cl /\
  if (k <? length cl)%nat then exists i, pyget l (-1 - Z.of_nat k) = Ok i /\ nth_best (fun j => - model_aic em (results s0) dg j) cl k i
  else pyget l (-1 - Z.of_nat k) = Err IndexError.
Proof.
  intros P I HC. pose proof (tables_of _ _ _ _ _ P) as T. destruct (t_cprobs _ _ _ _ _ T dg I) as (sc & cp & ES & F & _). exists sc.
  assert (FN : exists l, nth_error sc c = Some l /\ Permutation l cl /\ StronglySorted (worse (results s0) dg) l).
  { clear - F HC. revert c HC. induction F as [|a b la lb H F IH]; intros [|c] HC; try discriminate; cbn in *; [injection HC as <-; eauto|eauto]. }
  destruct FN as (l & N & P1 & S1). exists l. split; [exact ES|]. split; [exact N|]. split; [now apply Permutation_length|].
  rewrite pyget_end, (Permutation_length P1). destruct (Nat.ltb_spec k (length cl)) as [K|K]; [|reflexivity].
  destruct (nth_error l (length cl - 1 - k)) as [i|] eqn:NI; [|apply nth_error_None in NI; rewrite (Permutation_length P1) in NI; lia].
  exists i. split; [reflexivity|]. destruct (t_cls _ _ _ _ _ T) as (cs & EC & IV).
  assert (LT : forall j, In j cl -> (j < length (results s0))%nat).
  { rewrite EC, nth_error_map in HC. destruct (nth_error cs c) as [x|] eqn:NX; [|discriminate]. injection HC as <-. eapply inv_members; eauto. }
  eapply (kth_from_end_best _ l); [|exact P1|rewrite (Permutation_length P1); exact K|rewrite (Permutation_length P1); exact NI].
  assert (LT' : forall j, In j l -> (j < length (results s0))%nat) by (intros j Hj; apply LT, (Permutation_in _ P1), Hj).
  clear - S1 LT'. induction S1 as [|a l S1 IH HF]; constructor; [apply IH; intros; apply LT'; now right|].
  rewrite Forall_forall in *. intros b Hb. specialize (HF b Hb). unfold worse in HF. unfold model_aic.
  pose proof (LT' a (or_introl eq_refl)). pose proof (LT' b (or_intror Hb)).
  destruct (nth_error (results s0) a) eqn:Na; [|apply nth_error_None in Na; lia]. destruct (nth_error (results s0) b) eqn:Nb; [|apply nth_error_None in Nb; lia].
  specialize (HF _ _ eq_refl eq_refl). lra.
Qed.

(** get_model in a class: given explicitly (cls=c) or as the corder-th best. *)
Theorem C58_get_model_in_class :
  forall (s0 : mms) (gs r : list R) (tol : R) (s : mms) (dg : R) (c : nat) (cl : list nat) (k : nat) (co : option Z), prepared argsort em s0 gs r tol s -> In dg gs ->
    nth_error (classes s) c = Some cl ->
    (forall kw, kw = mkKwds co (Some (Z.of_nat k)) (Some (Some (Z.of_nat c))) \/
        (kw = mkKwds co (Some (Z.of_nat k)) None /\ get_class s dg (mkKwds co None None) = Ok c) ->
     ((k < length cl)%nat -> exists i, get_model s dg kw = Ok i /\ nth_best (fun j => - model_aic em (results s0) dg j) cl k i) /\
     ((length cl <= k)%nat -> get_model s dg kw = Err IndexError)).
Proof.
  intros s0 gs r tol s dg c cl k co P I HC kw HK. destruct (sorted_class_kth s0 gs r tol s dg c cl k P I HC) as (sc & l & ES & NL & _ & K).
  assert (E : get_model s dg kw = pyget l (-1 - Z.of_nat k)).
  { destruct HK as [->|(-> & G)]; unfold get_model; cbn [k_cls k_corder k_morder bind order].
    - unfold dget. rewrite ES. cbn [bind]. rewrite (pyget_nth _ _ _ NL). reflexivity.
    - assert (G' : get_class s dg (mkKwds (Some (order co)) None None) = Ok c) by (rewrite <- G; unfold get_class; cbn [k_corder]; destruct co; reflexivity).
      rewrite G'. cbn [bind]. unfold dget. rewrite ES. cbn [bind]. rewrite (pyget_nth _ _ _ NL). reflexivity. }
  rewrite E. split; intros L; destruct (Nat.ltb_spec k (length cl)); try lia; exact K.
Qed.

Lemma pyget_In {A} (l : list A) z a : pyget l z = Ok a -> In a l.
Proof.
  unfold pyget. destruct (_ || _)%bool; [discriminate|]. destruct (nth_error l _) eqn:N; [|discriminate]. intros [= <-]. eapply nth_error_In. exact N.
Qed.
(** A model returned by get_model exists, whatever the keywords. *)
Lemma get_model_range s0 gs r tol s dg kw i : prepared argsort em s0 gs r tol s -> In dg gs -> get_model s dg kw = Ok i -> (i < length (results s0))%nat.
Proof.
  intros P I E. pose proof (tables_of _ _ _ _ _ P) as T. unfold get_model in E.
  destruct (match k_cls kw with Some c => Ok c | None => _ end) as [c|]; cbn [bind] in E; [|discriminate]. destruct c as [c|].
  - destruct (t_cprobs _ _ _ _ _ T dg I) as (sc & cp & ES & F & _). unfold dget in E. rewrite ES in E. cbn [bind] in E.
    destruct (pyget sc c) as [l|] eqn:PL; cbn [bind] in E; [|discriminate]. apply pyget_In in PL, E.
    apply In_nth_error in PL as (k & NK). destruct (t_cls _ _ _ _ _ T) as (cs & EC & IV). rewrite EC in F.
    assert (X : exists cl, nth_error (map members cs) k = Some cl /\ Permutation l cl).
    { clear - F NK. revert k NK. induction F as [|a b la lb [H _] F IH]; intros [|k] NK; try discriminate; cbn in *; [injection NK as <-; eauto|eauto]. }
    destruct X as (cl & NC & PC). rewrite nth_error_map in NC. destruct (nth_error cs k) as [x|] eqn:NX; [|discriminate]. injection NC as <-.
    eapply inv_members; eauto. eapply Permutation_in; eauto.
  - destruct (t_probs _ _ _ _ _ T dg I) as (p & EP & _ & ES). unfold dget in E. rewrite ES in E. cbn [bind] in E. apply pyget_In in E.
    destruct (AOK p) as [PA _]. apply (Permutation_in _ PA), in_seq in E.
    assert (NE : map (fun m => aic_value em m dg) (results s0) <> []) by (intros Z; rewrite Z in EP; discriminate).
    destruct (C36_probabilities _ NE) as (p' & EP' & L & _). rewrite EP in EP'. injection EP' as <-. rewrite map_length in L. lia.
Qed.

(** The other accessors describe the model get_model returns for the same keywords. *)
Theorem C58_accessors_describe_the_model :
  forall (s0 : mms) (gs r : list R) (tol : R) (s : mms) (dg : R) (kw : kwds) (i : nat), prepared argsort em s0 gs r tol s -> In dg gs -> get_model s dg kw = Ok i ->
    let ms := results s0 in
    exists m, nth_error ms i = Some m /\
    get_aic s dg kw = Ok (aic_value em m dg) /\
    get_nfree s dg kw = Ok (m_free m + pnfree (m_base m))%nat /\
    (k_cls kw = Some None -> exists p x, akaikeprobs (map (model_aic em ms dg) (seq 0 (length ms))) = Ok p /\ nth_error p i = Some x /\ get_prob s dg kw = Ok x) /\
    (k_cls kw <> Some None -> exists p c x, akaikeprobs (map (class_aic em ms dg) (classes s)) = Ok p /\ classes_idx s i = Some c /\ nth_error p c = Some x /\ get_prob s dg kw = Ok x).
Proof.
  intros s0 gs r tol s dg kw i P I E ms. pose proof (get_model_range _ _ _ _ _ _ _ _ P I E) as LI. pose proof (tables_of _ _ _ _ _ P) as T.
  destruct (nth_error ms i) as [m|] eqn:NM; [|apply nth_error_None in NM; unfold ms in NM; lia]. exists m. split; [reflexivity|]. split; [|split; [|split]].
  - unfold get_aic. rewrite E. cbn [bind]. unfold dget. rewrite (t_aics _ _ _ _ _ T dg I). cbn [bind]. rewrite (pyget_nth _ i (aic_entry em dg m)); [reflexivity|]. rewrite nth_error_map. fold ms. rewrite NM. reflexivity.
  - unfold get_nfree. rewrite E. cbn [bind]. rewrite (t_res _ _ _ _ _ T), (pyget_nth _ i m) by exact NM. reflexivity.
  - intros K. destruct (t_probs _ _ _ _ _ T dg I) as (p & EP & AP & _). fold ms in EP. rewrite map_aic in EP.
    assert (NE : map (model_aic em ms dg) (seq 0 (length ms)) <> []) by (intros Z; rewrite Z in EP; discriminate).
    destruct (C36_probabilities _ NE) as (p' & EP' & L & _). rewrite EP in EP'. injection EP' as <-. rewrite map_length, seq_length in L.
    destruct (nth_error p i) as [x|] eqn:NX; [|apply nth_error_None in NX; unfold ms in L; lia]. exists p, x. split; [exact EP|]. split; [exact NX|].
    unfold get_prob. rewrite E. cbn [bind]. rewrite K. unfold dget. rewrite AP. cbn [bind]. now apply pyget_nth.
  - intros K. destruct (t_cprobs _ _ _ _ _ T dg I) as (sc & p & _ & _ & EP & CP & _). destruct (t_cls _ _ _ _ _ T) as (cs & EC & IV).
    assert (IC : In i (concat (map members cs))) by (apply (Permutation_in _ (Permutation_sym (inv_perm _ _ _ _ _ _ IV))), in_seq; lia).
    apply in_concat in IC as (l & Hl & Hi). apply in_map_iff in Hl as (x & <- & Hx). apply In_nth_error in Hx as (c & Hc).
    assert (CI : classes_idx s i = Some c) by (apply (inv_idx _ _ _ _ _ _ IV); eauto).
    assert (NE : map (class_aic em ms dg) (classes s) <> []) by (intros Z; unfold ms in Z; rewrite Z in EP; discriminate).
    destruct (C36_probabilities _ NE) as (p' & EP' & L & _). unfold ms in EP'. rewrite EP in EP'. injection EP' as <-. rewrite map_length, EC, map_length in L.
    assert (LC : (c < length cs)%nat) by (apply nth_error_Some; congruence).
    destruct (nth_error p c) as [v|] eqn:NV; [|apply nth_error_None in NV; lia]. exists p, c, v. split; [exact EP|]. split; [exact CI|]. split; [exact NV|].
    unfold get_prob. rewrite E. cbn [bind]. assert (G : (do c <- dict_nat (classes_idx s) i; do l <- dget (classprobs s) dg; pyget l (Z.of_nat c)) = Ok v).
    { unfold dict_nat. rewrite CI. cbn [bind]. unfold dget. rewrite CP. cbn [bind]. now apply pyget_nth. }
    destruct (k_cls kw) as [[z|]|]; [exact G|contradiction|exact G].
Qed.

(** An uncertainty that was not tested is a KeyError everywhere. *)
Theorem C58_unknown_uncertainty :
  forall (s0 : mms) (gs r : list R) (tol : R) (s : mms) (dg : R) (kw : kwds), prepared argsort em s0 gs r tol s -> ~ In dg gs ->
    get_class s dg kw = Err KeyError /\ get_model s dg kw = Err KeyError /\ get_prob s dg kw = Err KeyError /\
    get_aic s dg kw = Err KeyError /\ get_nfree s dg kw = Err KeyError /\
    maxprobmodel_byclass s dg = Err KeyError /\ maxprobmodel_bymodel s dg = Err KeyError.
Proof.
  intros s0 gs r tol s dg kw P N. destruct (t_none _ _ _ _ _ (tables_of _ _ _ _ _ P) dg N) as (N1 & N2 & N3 & N4 & N5).
  assert (GC : forall kw, get_class s dg kw = Err KeyError) by (intros k; unfold get_class, dget; rewrite N3; reflexivity).
  assert (GM : get_model s dg kw = Err KeyError).
  { unfold get_model. destruct (k_cls kw) as [[z|]|]; cbn [bind]; [unfold dget; rewrite N2; reflexivity|unfold dget; rewrite N1; reflexivity|]. rewrite GC. reflexivity. }
  split; [apply GC|]. split; [exact GM|]. unfold get_prob, get_aic, get_nfree. rewrite GM. cbn [bind].
  repeat (split; [reflexivity|]). split; [unfold maxprobmodel_byclass, best_model, best_class, dget; rewrite N3; reflexivity|unfold maxprobmodel_bymodel, dget; rewrite N1; reflexivity].
Qed.

Lemma insert_unique_spec x l : StronglySorted lt l -> StronglySorted lt (insert_unique x l) /\ forall y, In y (insert_unique x l) <-> y = x \/ In y l.
Proof.
  induction 1 as [|a l HS IH HF]; cbn [insert_unique]; [split; [repeat constructor|]; intros y; cbn; intuition|].
  destruct (Nat.ltb_spec x a) as [L|L]; [|destruct (Nat.eqb_spec x a) as [->|N]].
  - split; [|intros y; cbn; intuition]. constructor; [now constructor|]. constructor; [exact L|]. rewrite Forall_forall in *. intros y Hy. specialize (HF y Hy). lia.
  - split; [now constructor|]. intros y; cbn; intuition.
  - destruct IH as [I1 I2]. split; [|intros y; cbn; rewrite I2; intuition]. constructor; [exact I1|]. rewrite Forall_forall in *. intros y Hy. apply I2 in Hy as [->|Hy]; [lia|auto].
Qed.
Lemma unique_spec l : StronglySorted lt (unique l) /\ forall y, In y (unique l) <-> In y l.
Proof.
  unfold unique. induction l as [|a l IH]; cbn [fold_right]; [split; [constructor|tauto]|]. destruct IH as [I1 I2]. destruct (insert_unique_spec a _ I1) as [J1 J2]. split; [exact J1|]. intros y. rewrite J2, I2. cbn. intuition.
Qed.

Lemma get_class_default s dg : get_class s dg no_kwds = best_class s dg.
Proof. reflexivity. Qed.
Lemma get_model_default s dg : get_model s dg no_kwds = best_model s dg.
Proof.
  unfold get_model, best_model. cbn [no_kwds k_cls k_corder k_morder order].
  change (get_class s dg (mkKwds (Some 0%Z) None None)) with (best_class s dg). destruct (best_class s dg); reflexivity.
Qed.
Lemma best_ok s0 gs r tol s dg : prepared argsort em s0 gs r tol s -> In dg gs -> exists c i, best_class s dg = Ok c /\ best_model s dg = Ok i /\ (c < length (classes s))%nat.
Proof.
  intros P I. pose proof (tables_of _ _ _ _ _ P) as T. destruct (t_cls _ _ _ _ _ T) as (cs & EC & IV).
  assert (LC : (0 < length (classes s))%nat).
  { rewrite EC, map_length. destruct cs; [|cbn; lia]. pose proof (inv_perm _ _ _ _ _ _ IV) as Q. cbn in Q. apply Permutation_nil in Q. destruct P as [(_ & NR & _) _]. destruct (results s0); [contradiction|discriminate]. }
  destruct (C58_get_class s0 gs r tol s dg 0 None None P I) as (G & _ & _). destruct (G LC) as (c & Ec & (Ic & _)). apply in_seq in Ic.
  assert (NC : nth_error (classes s) c <> None) by (apply nth_error_Some; lia). destruct (nth_error (classes s) c) as [cl|] eqn:NE; [|contradiction].
  destruct (C58_get_model_in_class s0 gs r tol s dg c cl 0 (Some 0%Z) P I NE (mkKwds (Some 0%Z) (Some 0%Z) None)) as [M _]; [right; split; [reflexivity|exact Ec]|].
  assert (LL : (0 < length cl)%nat).
  { rewrite EC, nth_error_map in NE. destruct (nth_error cs c) as [x|] eqn:NX; [|discriminate]. injection NE as <-. destruct (inv_ex _ _ _ _ _ _ IV c x NX) as (i0 & rest & ex & -> & _). cbn. lia. }
  destruct (M LL) as (i & Ei & _). exists c, i. split; [exact Ec|]. split; [|lia]. rewrite <- get_model_default. exact Ei.
Qed.
Lemma map_result_total {A B} (f : A -> result B) l : (forall a, In a l -> exists b, f a = Ok b) -> exists bs, map_result f l = Ok bs /\ forall b, In b bs <-> exists a, In a l /\ f a = Ok b.
Proof.
  induction l as [|a l IH]; intros H; [exists []; split; [reflexivity|]; intros b; split; [intros []|intros (a & [] & _)]|].
  destruct (H a (or_introl eq_refl)) as (b & E). destruct IH as (bs & E' & I); [intros; apply H; now right|].
  exists (b :: bs). split; [cbn [map_result]; rewrite E; cbn [bind]; rewrite E'; reflexivity|]. intros b'. cbn [In]. rewrite I. split.
  - intros [<-|(a' & Ha & Hb)]; [exists a; auto|exists a'; auto].
  - intros (a' & [<-|Ha] & Hb); [left; congruence|right; eauto].
Qed.
(** bestclasses / bestmodels: the increasing list of the best ones over the given (or all)
    uncertainties; the maxprobmodel queries are get_model. *)
Theorem C58_best_sets :
  forall (s0 : mms) (gs r : list R) (tol : R) (s : mms) (arg : option (list R)), prepared argsort em s0 gs r tol s ->
    let over := match arg with None => gs | Some l => l end in (forall g, In g over -> In g gs) ->
    (exists l, bestclasses s arg = Ok l /\ StronglySorted lt l /\ forall c, In c l <-> exists g, In g over /\ get_class s g no_kwds = Ok c) /\
    (exists l, bestmodels s arg = Ok l /\ StronglySorted lt l /\ forall i, In i l <-> exists g, In g over /\ get_model s g no_kwds = Ok i) /\
    (forall g, maxprobmodel_byclass s g = get_model s g no_kwds) /\
    (forall g, maxprobmodel_bymodel s g = get_model s g (mkKwds None None (Some None))).
Proof.
  intros s0 gs r tol s arg P over HO. pose proof (tables_of _ _ _ _ _ P) as T.
  assert (OD : or_default s arg = over) by (unfold or_default, over; destruct arg; [reflexivity|apply (t_dgs _ _ _ _ _ T)]).
  split; [|split; [|split]].
  - unfold bestclasses. rewrite OD. destruct (map_result_total (best_class s) over) as (bs & -> & B).
    { intros g I. destruct (best_ok s0 gs r tol s g P (HO g I)) as (c & i & E & _). eauto. }
    cbn [bind]. destruct (unique_spec bs) as [U1 U2]. eexists. split; [reflexivity|]. split; [exact U1|]. intros c. rewrite U2, B. reflexivity.
  - unfold bestmodels. rewrite OD. destruct (map_result_total (best_model s) over) as (bs & -> & B).
    { intros g I. destruct (best_ok s0 gs r tol s g P (HO g I)) as (c & i & _ & E & _). eauto. }
    cbn [bind]. destruct (unique_spec bs) as [U1 U2]. eexists. split; [reflexivity|]. split; [exact U1|]. intros c. rewrite U2, B.
    split; intros (g & I & E); exists g; (split; [exact I|]); [rewrite get_model_default|rewrite <- get_model_default]; exact E.
  - intros g. rewrite get_model_default. reflexivity.
  - intros g. reflexivity.
Qed.

(** *** argmin *)
Lemma argmin_from_spec l : forall pre b mid, (forall w, In w pre -> b < w) -> (forall w, In w mid -> b <= w) ->
  exists pre' v post, pre ++ b :: mid ++ l = pre' ++ v :: post /\ argmin_from b (length pre) (length pre + S (length mid)) l = length pre' /\
    (forall w, In w pre' -> v < w) /\ (forall w, In w post -> v <= w).
Proof.
  induction l as [|v l IH]; intros pre b mid H1 H2; cbn [argmin_from].
  - exists pre, b, mid. rewrite app_nil_r. auto.
  - destruct (Rltb v b) eqn:E.
    + apply Rltb_spec in E. destruct (IH (pre ++ b :: mid) v []) as (pre' & w & post & A & B & C & D).
      * intros w Hw. apply in_app_or in Hw as [Hw|[<-|Hw]]; [specialize (H1 w Hw); lra|lra|specialize (H2 w Hw); lra].
      * intros ? [].
      * exists pre', w, post. cbn [app] in A. rewrite <- app_assoc in A. cbn [app] in A. split; [exact A|]. rewrite app_length in B. cbn [length] in B. replace (S (length pre + S (length mid))) with (length pre + S (length mid) + 1)%nat by lia. auto.
    + assert (E' : b <= v) by (apply Rnot_lt_le; intros G; apply Rltb_spec in G; congruence).
      destruct (IH pre b (mid ++ [v])) as (pre' & w & post & A & B & C & D); [exact H1| |].
      * intros w Hw. apply in_app_or in Hw as [Hw|[<-|[]]]; auto.
      * exists pre', w, post. rewrite <- app_assoc in A. cbn [app] in A. split; [exact A|]. rewrite app_length in B. cbn [length] in B. replace (S (length pre + S (length mid))) with (length pre + S (length mid + 1))%nat by lia. auto.
Qed.
Lemma argmin_spec l : l <> [] -> exists pre v post, l = pre ++ v :: post /\ argmin l = Ok (length pre) /\ (forall w, In w pre -> v < w) /\ (forall w, In w post -> v <= w).
Proof.
  destruct l as [|b l]; [contradiction|]. intros _. destruct (argmin_from_spec l [] b []) as (pre & v & post & A & B & C & D); [intros ? []|intros ? []|].
  exists pre, v, post. cbn [app length] in *. split; [exact A|]. split; [unfold argmin; rewrite <- B; reflexivity|auto].
Qed.
(** the first element of [gs] minimising [f] *)
Lemma argmin_map (f : R -> R) gs : gs <> [] -> exists pre g post i, gs = pre ++ g :: post /\ argmin (map f gs) = Ok i /\ pyget gs (Z.of_nat i) = Ok g /\
  (forall w, In w pre -> f g < f w) /\ (forall w, In w post -> f g <= f w).
Proof.
  intros NE. destruct (argmin_spec (map f gs)) as (p1 & v & p2 & E & A & B & C); [destruct gs; [contradiction|discriminate]|].
  apply map_eq_app in E as (pre & rest & -> & E1 & E2). destruct rest as [|g post]; [discriminate|]. cbn in E2. injection E2 as <- E2.
  exists pre, g, post, (length p1). split; [reflexivity|]. split; [exact A|]. split; [|split].
  - apply pyget_nth. rewrite <- E1, map_length, nth_error_app2, Nat.sub_diag by lia. reflexivity.
  - intros w Hw. apply B. rewrite <- E1. now apply in_map.
  - intros w Hw. apply C. rewrite <- E2. now apply in_map.
Qed.

(** maxprobdG_*: the first tested uncertainty at which the model's (class') probability is greatest. *)
Definition model_prob (ms : list model) (i : nat) (g : R) : R :=
  match akaikeprobs (map (model_aic em ms g) (seq 0 (length ms))) with Ok p => nth i p 0 | Err _ => 0 end.
Definition class_prob (ms : list model) (cs : list (list nat)) (c : nat) (g : R) : R :=
  match akaikeprobs (map (class_aic em ms g) cs) with Ok p => nth c p 0 | Err _ => 0 end.
Definition first_max (f : R -> R) (gs : list R) (g : R) : Prop :=
  exists pre post, gs = pre ++ g :: post /\ (forall w, In w pre -> f w < f g) /\ (forall w, In w post -> f w <= f g).
Theorem C58_most_favourable_uncertainty :
  forall (s0 : mms) (gs r : list R) (tol : R) (s : mms) (i : nat), prepared argsort em s0 gs r tol s -> (i < length (results s0))%nat ->
    (exists g, maxprobdG_bymodel s i = Ok g /\ first_max (model_prob (results s0) i) gs g) /\
    (exists g c, maxprobdG_byclass s i = Ok g /\ classes_idx s i = Some c /\ first_max (class_prob (results s0) (classes s) c) gs g).
Proof.
  intros s0 gs r tol s i P LI. pose proof (tables_of _ _ _ _ _ P) as T. assert (NG : gs <> []) by (destruct P as [(_ & _ & H & _) _]; exact H).
  assert (FM : forall f, exists g i0, argmax (map f gs) = Ok i0 /\ pyget gs (Z.of_nat i0) = Ok g /\ first_max f gs g).
  { intros f. destruct (argmin_map (fun x => - f x) gs NG) as (pre & g & post & i0 & E & A & B & C & D). exists g, i0. split; [unfold argmax; rewrite map_map; exact A|]. split; [exact B|].
    exists pre, post. split; [exact E|]. split; [intros w Hw; specialize (C w Hw); lra|intros w Hw; specialize (D w Hw); lra]. }
  split.
  - unfold maxprobdG_bymodel. rewrite (t_dgs _ _ _ _ _ T). rewrite (map_result_ok _ (model_prob (results s0) i)).
    + cbn [bind]. destruct (FM (model_prob (results s0) i)) as (g & i0 & -> & B & C). cbn [bind]. eauto.
    + intros g I. destruct (t_probs _ _ _ _ _ T g I) as (p & EP & AP & _). unfold dget. rewrite AP. cbn [bind]. rewrite map_aic in EP. unfold model_prob. rewrite EP. apply pyget_nth, nth_error_nth'.
      assert (NE : map (model_aic em (results s0) g) (seq 0 (length (results s0))) <> []) by (intros Z; rewrite Z in EP; discriminate).
      destruct (C36_probabilities _ NE) as (p' & EP' & L & _). rewrite EP in EP'. injection EP' as <-. rewrite map_length, seq_length in L. lia.
  - destruct (t_cls _ _ _ _ _ T) as (cs & EC & IV).
    assert (IC : In i (concat (map members cs))) by (apply (Permutation_in _ (Permutation_sym (inv_perm _ _ _ _ _ _ IV))), in_seq; lia).
    apply in_concat in IC as (l & Hl & Hi). apply in_map_iff in Hl as (x & <- & Hx). apply In_nth_error in Hx as (c & Hc).
    assert (CI : classes_idx s i = Some c) by (apply (inv_idx _ _ _ _ _ _ IV); eauto).
    unfold maxprobdG_byclass, dict_nat. rewrite CI. cbn [bind]. rewrite (t_dgs _ _ _ _ _ T). rewrite (map_result_ok _ (class_prob (results s0) (classes s) c)).
    + cbn [bind]. destruct (FM (class_prob (results s0) (classes s) c)) as (g & i0 & -> & B & C). cbn [bind]. exists g, c. auto.
    + intros g I. destruct (t_cprobs _ _ _ _ _ T g I) as (sc & p & _ & _ & EP & CP & _). unfold dget. rewrite CP. cbn [bind]. unfold class_prob. rewrite EP. apply pyget_nth, nth_error_nth'.
      assert (NE : map (class_aic em (results s0) g) (classes s) <> []) by (intros Z; rewrite Z in EP; discriminate).
      destruct (C36_probabilities _ NE) as (p' & EP' & L & _). rewrite EP in EP'. injection EP' as <-. rewrite map_length, EC, map_length in L. rewrite L. apply nth_error_Some. congruence.
Qed.

(** Testing new uncertainties after classify: the class tables are not rebuilt. *)
Theorem C58_stale_classes_refuted :
  forall (s0 : mms) (gs r : list R) (tol : R) (s : mms) (gs2 : list R) (s2 : mms) (dg : R), prepared argsort em s0 gs r tol s ->
    makeaics argsort em s gs2 = Ok s2 -> In dg gs2 -> ~ In dg gs ->
    (exists es, aics s2 dg = Some es) /\ get_model s2 dg no_kwds = Err KeyError /\ get_class s2 dg no_kwds = Err KeyError.
Proof.
  intros s0 gs r tol s gs2 s2 dg P E I N. destruct (t_none _ _ _ _ _ (tables_of _ _ _ _ _ P) dg N) as (_ & _ & N3 & _).
  unfold makeaics in E. destruct (test_models em (results s) gs2 (init_aics gs2 (aics s))) as [a|] eqn:ET; cbn [bind] in E; [|discriminate].
  destruct (makeaicweights gs2 a) as [w|] eqn:EW; cbn [bind] in E; [|discriminate]. destruct (makeaicprobs gs2 a) as [p|]; cbn [bind] in E; [|discriminate].
  destruct (makesortedprobs argsort gs2 p); cbn [bind] in E; [|discriminate]. injection E as <-.
  split.
  - cbn [aics]. destruct (tabulate_spec _ _ _ _ EW) as [W _]. destruct (W dg I) as (v & V & _). unfold dget in V. destruct (a dg); [eauto|discriminate].
  - assert (G : forall z t, sortedclassprobs t dg = None -> get_class t dg z = Err KeyError) by (intros z t H; unfold get_class, dget; rewrite H; reflexivity).
    split; [|apply G; exact N3]. unfold get_model. cbn [no_kwds k_cls k_corder]. rewrite G by exact N3. reflexivity.
Qed.

(** ** C59 *)
Theorem C59_nearest_key :
  forall (s : mms) (dg : R),
    (dgs s = [] -> dg_key s dg = Err ValueError) /\
    (dgs s <> [] -> exists pre g post, dgs s = pre ++ g :: post /\ dg_key s dg = Ok g /\
       (forall g', In g' (dgs s) -> Rabs (g - dg) <= Rabs (g' - dg)) /\ (forall g', In g' pre -> Rabs (g - dg) < Rabs (g' - dg))).
Proof.
  intros s dg. split; intros H; unfold dg_key.
  - rewrite H. reflexivity.
  - destruct (argmin_map (fun v => Rabs (v - dg)) (dgs s) H) as (pre & g & post & i & E & A & B & C & D). rewrite A. cbn [bind]. exists pre, g, post.
    split; [exact E|]. split; [exact B|]. split; [|exact C]. intros g' I. rewrite E in I. apply in_app_or in I as [I|[<-|I]]; [left; auto|lra|auto].
Qed.

(** ** C61 *)
Lemma filter_result_ok {A} (f : A -> result bool) (g : A -> bool) l : (forall a, In a l -> f a = Ok (g a)) -> filter_result f l = Ok (filter g l).
Proof.
  induction l as [|a l IH]; intros H; [reflexivity|]. cbn [filter_result filter]. rewrite (H a) by now left. cbn [bind]. rewrite IH by (intros; apply H; now right). reflexivity.
Qed.
Definition best_is (s : mms) (c : nat) (g : R) : bool := match best_class s g with Ok b => Nat.eqb b c | Err _ => false end.
Lemma classbest_eq s0 gs r tol s c arg : prepared argsort em s0 gs r tol s -> classbestdgs s c arg = Ok (filter (best_is s c) gs).
Proof.
  intros P. unfold classbestdgs. rewrite (t_dgs _ _ _ _ _ (tables_of _ _ _ _ _ P)). apply filter_result_ok. intros g I.
  destruct (best_ok s0 gs r tol s g P I) as (b & i & E & _). unfold best_is. rewrite E. reflexivity.
Qed.
(** Without an argument: exactly the uncertainties at which the class (model) is best. *)
Theorem C107_default_argument :
  forall (s0 : mms) (gs r : list R) (tol : R) (s : mms), prepared argsort em s0 gs r tol s ->
    (forall c, exists l, classbestdgs s c None = Ok l /\ forall g, In g l <-> In g gs /\ get_class s g no_kwds = Ok c) /\
    (forall i, (i < length (results s0))%nat -> exists l, modelbestdgs s i None = Ok l /\ forall g, In g l <-> In g gs /\ get_model s g no_kwds = Ok i).
Proof.
  intros s0 gs r tol s P. pose proof (tables_of _ _ _ _ _ P) as T.
  assert (BI : forall c g, best_is s c g = true <-> best_class s g = Ok c).
  { intros c g. unfold best_is. destruct (best_class s g) as [b|]; [rewrite Nat.eqb_eq; split; congruence|split; discriminate]. }
  split.
  - intros c. eexists. split; [eapply classbest_eq; eauto|]. intros g. rewrite filter_In, BI. reflexivity.
  - intros i LI. destruct (t_cls _ _ _ _ _ T) as (cs & EC & IV).
    assert (IC : In i (concat (map members cs))) by (apply (Permutation_in _ (Permutation_sym (inv_perm _ _ _ _ _ _ IV))), in_seq; lia).
    apply in_concat in IC as (l & Hl & Hi). apply in_map_iff in Hl as (x & <- & Hx). apply In_nth_error in Hx as (c & Hc).
    assert (CI : classes_idx s i = Some c) by (apply (inv_idx _ _ _ _ _ _ IV); eauto).
    unfold modelbestdgs, dict_nat. rewrite CI. cbn [bind]. rewrite (classbest_eq s0 gs r tol s c None P). cbn [bind].
    set (h := fun g => match best_model s g with Ok b => Nat.eqb b i | Err _ => false end).
    rewrite (filter_result_ok _ h).
    + eexists. split; [reflexivity|]. intros g. rewrite filter_In, filter_In, BI, get_model_default. unfold h. split.
      * intros [[H1 H2] H3]. split; [exact H1|]. destruct (best_model s g); [|discriminate]. apply Nat.eqb_eq in H3. congruence.
      * intros [H1 H2]. rewrite H2, Nat.eqb_refl. split; [|reflexivity]. split; [exact H1|].
        destruct (best_ok s0 gs r tol s g P H1) as (c' & i' & E1 & E2 & L). rewrite E1. f_equal.
        assert (i' = i) by congruence. subst i'.
        destruct (nth_error (classes s) c') as [cl|] eqn:NC; [|apply nth_error_None in NC; lia].
        destruct (C58_get_model_in_class s0 gs r tol s g c' cl 0 None P H1 NC (mkKwds None (Some (Z.of_nat 0)) None)) as [M _].
        { right. split; [reflexivity|exact E1]. }
        assert (LL : (0 < length cl)%nat).
        { rewrite EC, nth_error_map in NC. destruct (nth_error cs c') as [y|] eqn:NX; [|discriminate]. injection NC as <-. destruct (inv_ex _ _ _ _ _ _ IV c' y NX) as (i0 & rest & ex & -> & _). cbn. lia. }
        destruct (M LL) as (i2 & E3 & (I2 & _)). change (get_model s g (mkKwds None (Some (Z.of_nat 0)) None)) with (get_model s g no_kwds) in E3.
        rewrite get_model_default in E3. assert (i2 = i) by congruence. subst i2.
        assert (X : classes_idx s i = Some c').
        { rewrite EC, nth_error_map in NC. destruct (nth_error cs c') as [y|] eqn:NX; [|discriminate]. injection NC as <-. apply (inv_idx _ _ _ _ _ _ IV). eauto. }
        congruence.
    + intros g Hg. apply filter_In in Hg as [H1 H2]. apply BI in H2. unfold h, best_model. rewrite H2. cbn [bind].
      destruct (best_ok s0 gs r tol s g P H1) as (c' & i' & E1 & E2 & L). unfold best_model in E2. rewrite H2 in E2. cbn [bind] in E2.
      destruct (dget (sortedclasses s) g) as [sc|]; cbn [bind] in *; [|discriminate]. destruct (pyget sc (Z.of_nat c)) as [k|]; cbn [bind] in *; [|discriminate].
      destruct (pyget k (-1)); [reflexivity|discriminate].
Qed.
(** The argument is ignored: an empty list of uncertainties still yields those at which
    the class or model is best. *)
Theorem C61_argument_ignored_refuted :
  forall (s0 : mms) (gs r : list R) (tol : R) (s : mms), prepared argsort em s0 gs r tol s ->
    (forall c arg, classbestdgs s c arg = classbestdgs s c None) /\ (forall i arg, modelbestdgs s i arg = modelbestdgs s i None) /\
    (forall g, In g gs -> exists c l i l', classbestdgs s c (Some []) = Ok l /\ In g l /\ modelbestdgs s i (Some []) = Ok l' /\ In g l').
Proof.
  intros s0 gs r tol s P. split; [reflexivity|]. split; [reflexivity|]. intros g I. destruct (best_ok s0 gs r tol s g P I) as (c & i & E1 & E2 & L).
  destruct (C107_default_argument s0 gs r tol s P) as [D1 D2]. destruct (D1 c) as (l & A1 & A2).
  assert (LI : (i < length (results s0))%nat) by (eapply get_model_range; [exact P|exact I|rewrite get_model_default; exact E2]).
  destruct (D2 i LI) as (l' & B1 & B2). exists c, l, i, l'. split; [exact A1|]. split; [apply A2; split; [exact I|exact E1]|]. split; [exact B1|]. apply B2. split; [exact I|]. rewrite get_model_default. exact E2.
Qed.

(** ** C62 *)
Open Scope string_scope.
Theorem C108_served_keys :
  forall (s : mms) (dg : R) (k : kwds),
    get s dg ["aic"] k = (do v <- get_aic s dg k; Ok [GReal v]) /\
    get s dg ["class"] k = (do v <- get_class s dg k; Ok [GNat v]) /\
    get s dg ["model"] k = (do v <- get_model s dg k; Ok [GNat v]) /\
    get s dg ["nfree"] k = (do v <- get_nfree s dg k; Ok [GNat v]) /\
    get s dg ["prob"] k = (do v <- get_prob s dg k; Ok [GReal v]) /\
    (forall l l', get s dg (l ++ l')%list k = (do a <- get s dg l k; do b <- get s dg l' k; Ok (a ++ b)%list)).
Proof.
  intros s dg k. unfold get, get1. cbn -[get_aic get_class get_model get_nfree get_prob].
  split; [destruct (get_aic s dg k); reflexivity|]. split; [destruct (get_class s dg k); reflexivity|]. split; [destruct (get_model s dg k); reflexivity|].
  split; [destruct (get_nfree s dg k); reflexivity|]. split; [destruct (get_prob s dg k); reflexivity|].
  intros l l'. induction l as [|a l IH]; [cbn [app map_result bind]; destruct (map_result _ l'); reflexivity|]. cbn [app map_result]. rewrite IH.
  match goal with |- context [bind (if String.eqb a "aic" then ?x else ?y) _] => destruct (if String.eqb a "aic" then x else y) as [v|]; [|reflexivity] end. cbn [bind].
  destruct (map_result _ l) as [vs|]; [|reflexivity]. cbn [bind]. destruct (map_result _ l'); reflexivity.
Qed.
(** The documented key "dG" is a KeyError; the key that is served, "dg", rejects keywords. *)
Theorem C62_documented_key_refuted :
  forall (s : mms) (dg : R) (k : kwds),
    get s dg ["dG"] k = Err KeyError /\ get s dg ["dg"] no_kwds = Ok [GReal dg] /\ (k <> no_kwds -> get s dg ["dg"] k = Err TypeError).
Proof.
  intros s dg k. split; [reflexivity|]. split; [reflexivity|]. intros N. destruct k as [[|] [|] [|]]; try reflexivity. exfalso. apply N. reflexivity.
Qed.
Close Scope string_scope.
End Props.

(** ** C57: only total squared values are compared *)
(** Two one-peak models whose peaks have the same class and number of parameters and the
    same energy are in one class at tolerance 0, wherever their peaks are. *)
Theorem C57_displaced_peaks_refuted :
  forall (argsort : list R -> list nat) (em : method) (s0 : mms) (gs : list R) (s : mms) (p q b : part) (m m' : model),
    prepared argsort em s0 gs [0; 1] 0 s ->
    pvalue p [0; 1] = [1; 0] -> pvalue q [0; 1] = [0; 1] -> ptype p = ptype q -> pnpars p = pnpars q ->
    results s0 = [m; m'] -> m_peaks m = [p] -> m_peaks m' = [q] -> m_base m = b -> m_base m' = b ->
    classes_idx s 0 = classes_idx s 1 /\ classes_idx s 0 <> None.
Proof.
  intros argsort em s0 gs s p q b m m' P V1 V2 T N ER EP EQ EB EB'.
  destruct (C57_classes_partition_the_models argsort em s0 gs [0; 1] 0 s P) as (_ & PM & IX & NE & _ & _ & EX). rewrite ER in *. cbn [length seq] in PM.
  assert (C : forall i, In i [0; 1]%nat -> exists k c, nth_error (classes s) k = Some c /\ In i c).
  { intros i Hi. apply (Permutation_in _ (Permutation_sym PM)), in_concat in Hi as (c & Hc & Hi). apply In_nth_error in Hc as (k & Hk). eauto. }
  destruct (C 0%nat) as (k & c & Hk & Hc); [now left|]. destruct (C 1%nat) as (k' & c' & Hk' & Hc'); [now right; left|].
  assert (I0 : classes_idx s 0 = Some k) by (apply IX; eauto). assert (I1 : classes_idx s 1 = Some k') by (apply IX; eauto). rewrite I0, I1.
  split; [|discriminate]. f_equal. destruct (Nat.eq_dec k k') as [E|E]; [exact E|exfalso].
  (* otherwise 0 and 1 are both exemplars *)
  assert (LT : forall j x y, nth_error (classes s) j = Some x -> In y x -> (y < 2)%nat).
  { intros j x y Hj Hy. assert (In y (concat (classes s))) by (apply in_concat; exists x; split; [eapply nth_error_In; eauto|exact Hy]). apply (Permutation_in _ PM) in H. cbn in H. lia. }
  assert (HD : forall j x, nth_error (classes s) j = Some x -> forall y, In y x -> (forall z, In z x -> z = y) -> exists rest, x = y :: rest).
  { intros j x Hj y Hy HU. destruct (NE _ _ Hj) as [NN _]. destruct x as [|z x]; [contradiction|]. exists x. f_equal. apply HU. now left. }
  assert (U0 : forall z, In z c -> z = 0%nat).
  { intros z Hz. pose proof (LT _ _ _ Hk Hz). destruct (Nat.eq_dec z 1) as [->|]; [|lia]. exfalso. apply E. assert (classes_idx s 1 = Some k) by (apply IX; eauto). congruence. }
  assert (U1 : forall z, In z c' -> z = 1%nat).
  { intros z Hz. pose proof (LT _ _ _ Hk' Hz). destruct (Nat.eq_dec z 0) as [->|]; [|lia]. exfalso. apply E. assert (classes_idx s 0 = Some k') by (apply IX; eauto). congruence. }
  destruct (HD _ _ Hk 0%nat Hc U0) as (r1 & ->). destruct (HD _ _ Hk' 1%nat Hc' U1) as (r2 & ->).
  assert (A : alike 0 [0; 1] m m').
  { assert (EN : energy [0; 1] p = energy [0; 1] q) by (unfold energy; rewrite V1, V2; unfold Rsum; cbn [map fold_right]; ring).
    split; [rewrite EP, EQ; constructor; [|constructor]|rewrite EB, EB']; (split; [auto|]; split; [auto|]); unfold close; rewrite ?EN, Rminus_diag_eq, Rabs_R0 by reflexivity; lra. }
  eapply (EX k k'); [exact Hk|exact Hk'|exact E|reflexivity|reflexivity|exact A].
Qed.

(** ** Non-vacuity *)
(** A sorting function that meets the assumption on np.argsort. *)
Definition xargsort (l : list R) : list nat :=
  match sort_onto (fun i j => Ok (Rltb (nth i l 0) (nth j l 0))) (seq 0 (length l)) [] with Ok r => r | Err _ => [] end.
Lemma xargsort_ok : argsort_ok xargsort.
Proof.
  intros l. unfold xargsort.
  destruct (sort_onto_spec (fun i => nth i l 0) (length l) (fun i j => Ok (Rltb (nth i l 0) (nth j l 0)))) with (l := seq 0 (length l)) (acc := @nil nat) as (r & -> & P & S').
  - reflexivity.
  - intros i Hi. apply in_seq in Hi. lia.
  - intros i [].
  - constructor.
  - rewrite app_nil_r in P. auto.
Qed.

Definition xpeak (v : list R) : part := mkPart 0 3 3 (fun _ => v).
Definition xbase : part := mkPart 1 1 1 (fun r => map (fun _ => 0) r).
Definition xmodel (v : list R) : model := mkModel [xpeak v] xbase 3 3 (combine v [1; 0]).
(** two models with displaced peaks and a third with a higher peak *)
Definition xmms : mms :=
  mkMms [xmodel [1; 0]; xmodel [0; 1]] [] [] (fun _ => None) None dempty dempty dempty dempty dempty dempty dempty dempty.
Definition ymms : mms :=
  mkMms [xmodel [1; 0]; xmodel [0; 1]; xmodel [3; 1]] [] [] (fun _ => None) None dempty dempty dempty dempty dempty dempty dempty dempty.

Lemma usable_x : forall s0, s0 = xmms \/ s0 = ymms -> usable AIC s0 [1; 2] [0; 1].
Proof.
  intros s0 H. split; [now left|]. split; [destruct H as [-> | ->]; discriminate|]. split; [discriminate|].
  split; [constructor; [intros [E|[]]; lra|constructor; [intros []|constructor]]|].
  split; [intros g [<-|[<-|[]]]; lra|].
  intros m Hm. assert (E : exists a b, m = xmodel [a; b]) by (destruct H as [-> | ->]; cbn in Hm; intuition subst; eauto).
  destruct E as (a & b & ->). split; [reflexivity|]. intros p [<-|[]]. reflexivity.
Qed.
Example C58_hypotheses_met : exists s, prepared xargsort AIC ymms [1; 2] [0; 1] (1/10) s.
Proof. apply C58_preparation_succeeds. apply usable_x. now right. Qed.
(** The displaced pair really lands in one class. *)
Example C57_displaced_example : exists s k, prepared xargsort AIC xmms [1; 2] [0; 1] 0 s /\ classes_idx s 0 = Some k /\ classes_idx s 1 = Some k.
Proof.
  destruct (C58_preparation_succeeds xargsort AIC xmms [1; 2] [0; 1] 0 (usable_x _ (or_introl eq_refl))) as (s & P).
  destruct (C57_displaced_peaks_refuted xargsort AIC xmms [1; 2] s (xpeak [1; 0]) (xpeak [0; 1]) xbase (xmodel [1; 0]) (xmodel [0; 1]) P) as [A B]; try reflexivity.
  destruct (classes_idx s 0) as [k|] eqn:E; [|contradiction]. exists s, k. auto.
Qed.
(** The stale tables: after makeaics([1;2]), classify, makeaics([4]). *)
Example C58_stale_example : exists s s2, prepared xargsort AIC ymms [1; 2] [0; 1] (1/10) s /\ makeaics xargsort AIC s [4] = Ok s2 /\ get_model s2 4 no_kwds = Err KeyError.
Proof.
  destruct C58_hypotheses_met as (s & P).
  assert (R3 : results s = results ymms) by (destruct (C57_classes_partition_the_models xargsort AIC _ _ _ _ _ P) as (H & _); exact H).
  destruct (C60_rescaled_equals_direct xargsort AIC s [4]) as (s2 & E & _).
  { now left. } { rewrite R3. discriminate. } { discriminate. } { constructor; [intros []|constructor]. } { intros g [<-|[]]. lra. }
  exists s, s2. split; [exact P|]. split; [exact E|].
  destruct (C58_stale_classes_refuted xargsort AIC ymms [1; 2] [0; 1] (1/10) s [4] s2 4 P E) as (_ & H & _); [now left| |exact H].
  intros [H|[H|[]]]; lra.
Qed.
Example C59_example : exists g, dg_key (mkMms [] [1; 2; 4] [] (fun _ => None) None dempty dempty dempty dempty dempty dempty dempty dempty) 3 = Ok g /\ g = 2.
Proof.
  exists 2. split; [|reflexivity]. unfold dg_key. cbn [dgs map argmin argmin_from bind].
  assert (A : Rltb (Rabs (2 - 3)) (Rabs (1 - 3)) = true) by (apply Rltb_spec; unfold Rabs; repeat destruct Rcase_abs; lra). rewrite A.
  assert (B : Rltb (Rabs (4 - 3)) (Rabs (2 - 3)) = false) by (apply Bool.not_true_is_false; rewrite Rltb_spec; unfold Rabs; repeat destruct Rcase_abs; lra). rewrite B.
  reflexivity.
Qed.

Print Assumptions C60_rescaled_equals_direct.
Print Assumptions C60_repeated_uncertainty_refuted.
Print Assumptions C58_preparation_succeeds.
Print Assumptions C57_classes_partition_the_models.
Print Assumptions C57_displaced_peaks_refuted.
Print Assumptions C58_get_class.
Print Assumptions C58_get_model_any.
Print Assumptions C58_get_model_in_class.
Print Assumptions C58_accessors_describe_the_model.
Print Assumptions C58_unknown_uncertainty.
Print Assumptions C58_best_sets.
Print Assumptions C58_most_favourable_uncertainty.
Print Assumptions C58_stale_classes_refuted.
Print Assumptions C59_nearest_key.
Print Assumptions C107_default_argument.
Print Assumptions C61_argument_ignored_refuted.
Print Assumptions C108_served_keys.
Print Assumptions C62_documented_key_refuted.

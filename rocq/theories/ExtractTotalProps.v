(** Property C201: what an extraction can end with. *)
From Coq Require Import Permutation Sorted.
From Verif Require Import Prelude ModelCluster ModelClusterProofs ModelClusterProps Prune PruneProofs PruneProps AugmentProps Extract ExtractProofs ExtractProps.
From Verif Require DataClusters DataClustersSpec DataClustersAdj DataClustersProofs DataClustersMore DataClustersProps.
Open Scope Z_scope.

(** The outcome is a value with the stated property, or a ValueError. *)
Definition fine {A} (Post : A -> Prop) (r : option (result A)) : Prop :=
  match r with Some (Ok a) => Post a | Some (Err e) => e = ValueError | None => False end.

Lemma fine_bind {A C} (P1 : A -> Prop) (P2 : C -> Prop) m f :
  fine P1 m -> (forall a, m = Some (Ok a) -> P1 a -> fine P2 (f a)) -> fine P2 (obind m f).
Proof. destruct m as [[a|e]|]; cbn [obind fine]; auto. Qed.
Lemma fine_case {A C} (P1 : A -> Prop) (P2 : C -> Prop) (r : result A) f :
  fine P1 (lift r) -> (forall a, r = Ok a -> P1 a -> fine P2 (f a)) -> fine P2 (match r with Ok a => f a | Err e => Some (Err e) end).
Proof. destruct r as [a|e]; cbn [lift fine]; auto. Qed.
Lemma fine_weaken {A} (P1 P2 : A -> Prop) m : fine P1 m -> (forall a, P1 a -> P2 a) -> fine P2 m.
Proof. destruct m as [[a|e]|]; cbn [fine]; auto. Qed.
Lemma fine_ok {A} (P1 : A -> Prop) r a : r = Ok a -> P1 a -> fine P1 (lift r).
Proof. intros ->. cbn. auto. Qed.

Section Total.
Context {P B Q : Type}.
Variable T : xtools P B Q.
Notation w := (t_w T).
Notation cluster := (cluster P B).
Variables (bl : B) (cres : Z) (em : nat) (pf : list nat).

Definition unlab : P -> unit := fun _ => tt.

(** The optimiser returns or raises SrMiseFitError -- or ValueError, when it is given no
    peak; it changes parameters only.  The
    estimator raises SrMiseEstimationError only and makes removable peaks; moving peaks
    to a point keeps them removable.  argsort()[-1] is a greatest evaluator, and "<" on
    evaluators is asymmetric. *)
Definition well_behaved : Prop :=
  engine_shape w unlab /\
  (forall m b c n, snd (w_engine w m b c n) = Ok tt \/ snd (w_engine w m b c n) = Err FitError \/
                   (m = [] /\ snd (w_engine w m b c n) = Err ValueError)) /\
  (forall c, match w_estimate w c with
             | Err e => e = EstimationError
             | Ok (Some p) => w_removable w p = true
             | Ok None => True end) /\
  (forall a b m, (forall p, In p m -> w_removable w p = true) -> forall p, In p (w_match_at w a b m) -> w_removable w p = true) /\
  argmax_ok (w_qlt w) (t_qargmax T) /\
  (forall a b, w_qlt w a b = true -> w_qlt w b a = false).

Hypothesis SN : sane T bl.
Hypothesis WB : well_behaved.
Hypothesis PF : pf <> [].

Definition allrem (m : list P) : Prop := forall p, In p m -> w_removable w p = true.
Definition good (c : cluster) : Prop := c_pf c <> [] /\ allrem (c_model c).

Lemma AS0 : argsort_ok (w_argsort w). Proof. apply SN. Qed.
Lemma RO0 : forall x, w_rnd w x < 0 <-> x < 0.
Proof.
  intros x. destruct (proj1 SN) as [M Z0]. pose proof (proj2 (Z0 0) eq_refl) as R0. split; intros H.
  - destruct (Z.lt_ge_cases x 0) as [|G]; [assumption|]. specialize (M _ _ G). lia.
  - pose proof (M x 0 ltac:(lia)). pose proof (Z0 x). lia.
Qed.

Lemma allrem_sig m : allrem m <-> (forall x, In x (sig w unlab m) -> snd x = true).
Proof. exact (all_removable_sig w unlab m). Qed.
Lemma allrem_kept s m m' : kept w unlab s m m' -> allrem m -> allrem m'.
Proof.
  intros (rem & Pm & _) H. apply allrem_sig. intros x Hx. apply (proj1 (allrem_sig m)); [exact H|].
  rewrite Pm. apply in_or_app. now left.
Qed.
Lemma allrem_perm m m' : Permutation m m' -> allrem m -> allrem m'.
Proof. intros E H p Hp. apply H. eapply Permutation_in; [symmetry; exact E|exact Hp]. Qed.
Lemma allrem_sort m : allrem m -> allrem (sort_peaks w m).
Proof. apply allrem_perm. symmetry. apply (sort_perm w AS0). Qed.
Lemma allrem_pick m is : allrem m -> allrem (pick m is).
Proof.
  intros H. induction is as [|i is IH]; cbn [pick]; [intros p []|]. intros p Hp. unfold pick in *.
  cbn [flat_map] in Hp. apply in_app_or in Hp as [Hp|Hp]; [|now apply IH].
  destruct (nth_error m i) eqn:N; [|destruct Hp]. destruct Hp as [<-|[]]. apply H. eapply nth_error_In; exact N.
Qed.
Lemma allrem_app a b : allrem a -> allrem b -> allrem (a ++ b).
Proof. intros H1 H2 p Hp. apply in_app_or in Hp as [Hp|Hp]; auto. Qed.

Lemma min_npars_ok l : l <> [] -> exists n, min_npars w l = Ok n.
Proof. destruct l; [contradiction|]. intros _. cbn. eauto. Qed.

(** A fit of a model on some data always ends normally or with ValueError. *)
Definition soft {A} (r : result A) : Prop := (exists o, r = Ok o) \/ r = Err ValueError.
Lemma soft_ok {A} (a : A) : soft (Ok a).
Proof. left. eauto. Qed.
Lemma fit_good c justify nt fb est : r_cluster c <> [] -> good c ->
  soft (fr_out (fit w c justify nt fb est)) /\ good (fr_c (fit w c justify nt fb est)).
Proof.
  intros RN (G1 & G2). destruct WB as (ES & TM & EST & _). destruct (min_npars_ok _ G1) as (mn & MN).
  assert (TAIL : forall c1 o1, r_cluster c1 = r_cluster c -> c_pf c1 = c_pf c -> allrem (c_model c1) ->
    let f := match (c1, @None (result (option Q))) with | (c1, Some r) => mkFitRes c1 (c_model c1) (c_base c1) (c_model c1) r | (c1, None) =>
    let orig_qual := w_quality w c1 in
    let c2 := set_last c1 (c_size c1) in
    let fb := fb && match c_base c2 with None => false | Some b => (0 <? w_b_npars w false b)%nat end in
    match w_engine w (c_model c2) (if fb then c_base c2 else None) c2 nt with
    | ((ps, ob), out) =>
      let bl' := if fb then ob else c_base c2 in
      match out with
      | Err FitError => mkFitRes c2 ps bl' ps (Ok None)
      | Err e => mkFitRes (set_base (set_model c2 ps) bl') ps bl' ps (Err e)
      | Ok _ =>
        let ps1 := sort_peaks w ps in
        match cleanfit w ps1 (r_cluster c2) (e_cluster c2) with
        | Err e => mkFitRes (set_base (set_model c2 ps1) bl') (if fb then ps else ps1) bl' ps (Err e)
        | Ok (ps2, _) =>
          let c3 := set_base (set_model c2 ps2) bl' in
          let keep := if fb then ps else ps2 in
          let new_qual := w_quality w c3 in
          if w_qlt w new_qual orig_qual then mkFitRes c2 keep bl' ps (Ok None)
          else if justify && (length ps2 =? 1)%nat && (0 <? length (c_model c1))%nat then
            match min_npars w (c_pf c) with
            | Err e => mkFitRes c3 keep bl' ps (Err e)
            | Ok n => if w_growth w new_qual c3 n then mkFitRes c2 keep bl' ps (Ok None)
                      else mkFitRes c3 keep bl' ps (Ok (Some new_qual))
            end
          else mkFitRes c3 keep bl' ps (Ok (Some new_qual))
        end
      end
    end end in o1 = f -> soft (fr_out o1) /\ good (fr_c o1)).
  { intros c1 o1 HR HP HM f ->. unfold f. clear f. cbv zeta. set (c2 := set_last c1 (c_size c1)).
    assert (G2' : good c2) by (split; [unfold c2; cbn [set_last c_pf]; now rewrite HP|exact HM]).
    change (c_model c2) with (c_model c1). set (fb' := fb && _).
    destruct (w_engine w (c_model c1) (if fb' then c_base c2 else None) c2 nt) as [[ps ob] out] eqn:EE.
    pose proof (TM (c_model c1) (if fb' then c_base c2 else None) c2 nt) as TM1. rewrite EE in TM1. cbn [snd] in TM1.
    pose proof (sig_engine w unlab _ _ (ES _ _ _ _ _ _ _ EE)) as SG.
    assert (AP : allrem ps) by (apply allrem_sig; rewrite SG; now apply (proj1 (allrem_sig _))).
    destruct TM1 as [->|[->|[_ ->]]]; [|cbn [fr_out fr_c]; split; [apply soft_ok|exact G2']|cbn [fr_out fr_c]; split; [right; reflexivity|split; [exact (proj1 G2')|exact AP]]].
    destruct (cleanfit w (sort_peaks w ps) (r_cluster c2) (e_cluster c2)) as [[ps2 n]|e] eqn:CF.
    2:{ exfalso. unfold cleanfit, removed_indices in CF. change (r_cluster c2) with (r_cluster c1) in CF. rewrite HR in CF.
        destruct (r_cluster c) as [|r0 rc]; [contradiction|]. discriminate CF. }
    assert (G3 : good (set_base (set_model c2 ps2) (if fb' then ob else c_base c2))).
    { split; [exact (proj1 G2')|]. cbn [set_base set_model c_model]. eapply allrem_kept; [exact (cleanfit_kept w unlab _ _ _ _ _ CF)|now apply allrem_sort]. }
    rewrite MN. destruct (w_qlt w _ _); cbn [fr_out fr_c]; [split; [apply soft_ok|exact G2']|].
    destruct (_ && _ && _); [|cbn [fr_out fr_c]; split; [apply soft_ok|exact G3]].
    destruct (w_growth w _ _ _); cbn [fr_out fr_c]; (split; [apply soft_ok|]); [exact G2'|exact G3]. }
  unfold fit. destruct (c_never c); [cbn [fr_out fr_c]; split; [apply soft_ok|exact (conj G1 G2)]|].
  destruct (c_model c) as [|p0 m0] eqn:M.
  - destruct est; [|cbn [fr_out fr_c]; split; [apply soft_ok|split; [exact G1|rewrite M; exact G2]]].
    destruct (estimatepeak w c) as [c1 o] eqn:EP. destruct (estimate_frame w _ _ _ EP M) as (FR & _ & _ & HC).
    unfold estimatepeak in EP. destruct (c_pf c) as [|f0 pf0] eqn:EPF; [contradiction|]. rewrite <- EPF in *.
    pose proof (EST c) as EC. destruct (w_estimate w c) as [[p|]|e] eqn:WE.
    + destruct HC as [->|(p' & E1 & -> & ->)].
      * exfalso. unfold replacepeaks in EP. rewrite M in EP. cbn in EP. injection EP as EP _.
        apply (f_equal c_model) in EP. cbn [set_model c_model] in EP. rewrite M in EP.
        pose proof (Permutation_length (sort_perm w AS0 [p])) as LL. rewrite EP in LL. discriminate.
      * injection E1 as <-. eapply (TAIL (set_model c (sort_peaks w [p])) _ eq_refl eq_refl); [|reflexivity].
        apply allrem_sort. intros q [<-|[]]. exact EC.
    + injection EP as <- <-. eapply (TAIL c _ eq_refl eq_refl); [rewrite M; exact G2|reflexivity].
    + injection EP as <- <-. subst e. cbn [fr_out fr_c]. split; [apply soft_ok|]. split; [exact G1|rewrite M; exact G2].
  - rewrite <- M in *. eapply (TAIL c _ eq_refl eq_refl); [exact G2|reflexivity].
Qed.

Lemma tame : engine_tame w.
Proof.
  destruct WB as (_ & TM & _). intros m0 b0 c0 n0 ps b' e HM EE. pose proof (TM m0 b0 c0 n0) as X. rewrite EE in X. cbn [snd] in X.
  destruct X as [X|[X|[X _]]]; [discriminate|congruence|contradiction].
Qed.
Lemma fit_true_good c : r_cluster c <> [] -> good c -> fine (fun c' => good c' /\ r_cluster c' = r_cluster c) (lift (fit_true T c)).
Proof.
  intros RN G. destruct (fit_good c true 0 false true RN G) as ([(o & E)|E] & G'); unfold fit_true; rewrite E; [|reflexivity]. cbn [lift fine]. split; [exact G'|].
  destruct (fit_frame w AS0 c true 0 false true) as (F1 & _ & _ & F4 & F5 & _). unfold r_cluster. now rewrite F1, F4, F5.
Qed.

Lemma rebuild_good c other new : r_cluster c <> [] -> good c -> allrem other -> allrem new ->
  fine good (lift (rebuild T c other new)).
Proof.
  intros RN G A1 A2. unfold rebuild, replacepeaks, slice_bounds. cbn -[Z.of_nat sort_peaks]. unfold clamp. cbn -[Z.of_nat sort_peaks].
  assert (Z.to_nat (Z.min 0 (Z.of_nat (length other))) = 0%nat) as -> by lia. cbn [Nat.max]. unfold slice. cbn [Nat.sub firstn existsb].
  match goal with |- match ?m with _ => _ end => change (fine good (lift m)) end.
  eapply fine_weaken; [apply fit_true_good; [exact RN|]|intros c1 [G1 _]; exact G1].
  split; [apply G|]. cbn [set_model c_model]. apply allrem_sort. unfold assign_slice. cbn [firstn app]. apply allrem_app; [exact A2|].
  cbn [skipn Nat.max]. exact A1.
Qed.

Lemma split_list {A} (l : list A) i : (i <= length l)%nat -> exists pre post, l = pre ++ post /\ length pre = i.
Proof. intros H. exists (firstn i l), (skipn i l). split; [symmetry; apply firstn_skipn|rewrite firstn_length; lia]. Qed.

Section OneCall.
Variable rec : list Z -> list Z -> list Z -> option (result cluster).
Variable depth : nat.
Variables ax ay ae : array.
Variable yd : list Z.
Hypothesis ARR : arrays_ok ax ay ae.
Hypothesis REC : (depth < 3)%nat -> forall rx ry re, DataClustersSpec.increasing rx -> rx <> [] -> length ry = length rx -> length re = length rx ->
  fine (fun c => allrem (c_model c)) (rec rx ry re).

Notation holds := (holds bl em ax ay ae).

Lemma neighbourhood_rem c b : allrem (c_model c) ->
  allrem (near_pk (neighbourhood T ax c b)) /\ allrem (other_pk (neighbourhood T ax c b)).
Proof. intros H. unfold neighbourhood. cbn [near_pk other_pk]. split; now apply allrem_pick. Qed.

(** Building the local problem fails exactly when there is no data in the neighbourhood. *)
Lemma adj_cluster_good h : allrem (near_pk h) ->
  (adj_x ax h = [] /\ adj_cluster T bl em pf ax ay ae h = Err ValueError) \/
  (adj_x ax h <> [] /\ exists c, adj_cluster T bl em pf ax ay ae h = Ok c /\ good c /\ r_cluster c = adj_x ax h /\ c_model c = near_pk h).
Proof.
  intros AR. destruct (adj_lens T bl ax ay ae SN ARR h) as [L1 L2]. unfold adj_cluster. destruct (adj_x ax h) as [|r0 rx] eqn:EX.
  - left. split; [reflexivity|]. unfold make_cluster, change_slice_from, all_below. cbn [length slice Nat.sub firstn]. reflexivity.
  - right. split; [discriminate|]. rewrite <- EX in *.
    destruct (make_ok w (near_pk h) (Some bl) (mkArr 3 (adj_x ax h)) (mkArr 4 (adj_y T ax ay h)) (mkArr 5 (adj_e ae h)) 0 (length (adj_x ax h)) em pf RO0) as (v & ->);
      cbn [adat]; [exact L1|exact L2|unfold valuebl; apply SN|rewrite EX; cbn; lia|].
    eexists. split; [reflexivity|]. split; [split; [exact PF|exact AR]|]. split; [|reflexivity].
    unfold r_cluster, slice. cbn [c_r c_start c_stop adat]. rewrite Nat.sub_0_r. cbn [skipn]. apply firstn_all.
Qed.

Lemma recurse_on_fine h m en c : adj_x ax h <> [] -> r_cluster c <> [] -> good c ->
  fine (fun c' => allrem (c_model c')) (recurse_on T em pf rec depth ax ay ae h m en c).
Proof.
  intros XN RN G. destruct (adj_lens T bl ax ay ae SN ARR h) as [L1 L2]. unfold recurse_on. destruct (min_npars_ok pf PF) as (mn & MN).
  rewrite MN. cbn [lift obind].
  assert (LV : length (vsub w (adj_y T ax ay h) (vsum w (adj_x ax h) m)) = length (adj_x ax h)).
  { rewrite (ExtractProps.vsub_len T); [exact L1|]. rewrite (vsum_len T bl) by exact SN. now rewrite L1. }
  destruct (make_ok w [] None (mkArr 3 (adj_x ax h)) (mkArr 4 (vsub w (adj_y T ax ay h) (vsum w (adj_x ax h) m))) (mkArr 5 (adj_e ae h)) 0 (length (adj_x ax h)) em pf RO0) as (v & MK);
    cbn [adat]; [exact LV|exact L2|unfold valuebl; apply map_length|destruct (adj_x ax h); [contradiction|cbn; lia]|].
  assert (MK' : make_cluster w [] None (mkArr 3 (adj_x ax h)) (mkArr 4 (vsub w (adj_y T ax ay h) (vsum w (adj_x ax h) m))) (mkArr 5 (adj_e ae h)) None em pf =
    make_cluster w [] None (mkArr 3 (adj_x ax h)) (mkArr 4 (vsub w (adj_y T ax ay h) (vsum w (adj_x ax h) m))) (mkArr 5 (adj_e ae h)) (Some (0%nat, length (adj_x ax h))) em pf) by reflexivity.
  rewrite MK', MK. cbn [obind]. destruct (en && _ && _) eqn:C; [|exact (proj2 G)]. apply andb_prop in C as [_ C]. apply Nat.ltb_lt in C.
  eapply fine_bind.
  - apply REC; [exact C|apply increasing_slice; apply ARR|exact XN|exact LV|exact L2].
  - intros r _ AR. destruct WB as (ES & TM & EST & MA & AM & ASY).
    pose proof tame as ET.
    destruct (C66_return_or_valueerror w (t_qargmax T) unlab AS0 ES ET AM) with (X := True) (c := c) (source := r) (fuel := S (length (c_model r))) as (c' & [E|[_ E]]).
    + intros c0 e E0. pose proof (EST c0) as X. rewrite E0 in X. exact X.
    + intros c0 n. destruct (TM [] None c0 n) as [X|[X|[_ X]]]; auto.
    + lia.
    + exact RN.
    + apply G.
    + intros p [Hp|Hp]; [now apply G|now apply AR].
    + rewrite E. cbn [fine].
      destruct (C66_terminates_with_own_and_source_peaks w (t_qargmax T) unlab AS0 ES c r (S (length (c_model r))) ltac:(lia)) as (c2 & out & E2 & H1 & _).
      rewrite E in E2. injection E2 as <- <-. destruct (H1 eq_refl) as [(gone & PM)|(c0 & p & _ & WE & HC)].
      * apply allrem_sig. intros x Hx. unfold sig in Hx.
        assert (IX : In x (map (fun p : P => (unlab p, w_removable w p)) (c_model c) ++ map (fun p : P => (unlab p, w_removable w p)) (c_model r))).
        { rewrite PM. apply in_or_app. now left. }
        apply in_app_or in IX as [IX|IX]; apply in_map_iff in IX as (p & <- & Ip); cbn [snd]; [now apply G|now apply AR].
      * pose proof (EST c0) as X. rewrite WE in X. destruct HC as [->|HC]; [intros q []|].
        apply allrem_sig. intros x Hx. unfold sig in Hx. rewrite HC in Hx. destruct Hx as [<-|[]]. exact X.
    + rewrite E. reflexivity.
Qed.

Lemma holds_rcluster p (c : cluster) : holds p c -> 0 <= fst p <= snd p -> snd p < Z.of_nat (length (adat ax)) -> r_cluster c <> [].
Proof.
  intros (H1 & H2 & H3 & _) R1 R2 E. apply (f_equal (@length Z)) in E. unfold r_cluster in E. rewrite slice_length, H3 in E. cbn in E. lia.
Qed.

Lemma copy_good p (c : cluster) : holds p c -> 0 <= fst p <= snd p -> snd p < Z.of_nat (length (adat ax)) -> good c ->
  exists c', copy_cluster w c = Ok c' /\ good c' /\ holds p c' /\ c_model c' = c_model c.
Proof.
  intros H R1 R2 G. pose proof H as (H1 & H2 & H3 & H4 & H5 & H6 & H7). destruct ARR as (A1 & A2 & _).
  destruct (make_ok w (c_model c) (c_base c) (c_r c) (c_y c) (c_e c) (c_start c) (c_stop c) (c_em c) (c_pf c) RO0) as (v & E);
    [rewrite H3, H4; exact A1|rewrite H3, H5; exact A2|rewrite H3, H7; unfold valuebl; apply SN|rewrite H3; lia|].
  unfold copy_cluster. rewrite E. eexists. split; [reflexivity|]. split; [exact G|]. split; [exact H|reflexivity].
Qed.

Lemma boundary_fine cs (mcs : list cluster) k : Forall2 holds cs mcs -> Forall good mcs -> well_formed (Z.of_nat (length (adat ax))) cs -> (k < length cs)%nat ->
  (length cs <= length (adat ax))%nat ->
  fine (Forall good) (boundary T bl em pf rec depth ax ay ae mcs k).
Proof.
  intros F G (W1 & W2) HK HL. unfold boundary. destruct (nth_error cs k) as [p|] eqn:NP; [|apply nth_error_None in NP; lia].
  destruct (Forall2_nth _ _ _ F _ _ NP) as (c & NC & H). rewrite NC. destruct p as [lo hi]. pose proof (W1 _ _ _ NP) as RG.
  assert (GC : good c) by (rewrite Forall_forall in G; apply G; eapply nth_error_In; exact NC).
  destruct (copy_good _ _ H ltac:(cbn; lia) ltac:(cbn; lia) GC) as (c0 & E0 & G0 & H0 & _). rewrite E0. cbn [lift obind].
  pose proof (holds_rcluster _ _ H0 ltac:(cbn; lia) ltac:(cbn; lia)) as RN0.
  cbn [lift obind]; eapply fine_case; [exact (fit_true_good c0 RN0 G0)|]. intros full _ [G1 R1].
  destruct (pyget_in (adat ax) k ltac:(lia)) as (bx & -> & _). cbn [lift obind].
  destruct (pyget_in (adat ay) k) as (by_ & -> & _); [destruct ARR as (A1 & _); lia|]. cbn [lift obind].
  set (h := neighbourhood T ax full bx). destruct (neighbourhood_rem full bx (proj2 G1)) as [N1 N2]. fold h in N1, N2.
  destruct (adj_cluster_good h N1) as [(_ & ->)|(XN & a & -> & GA & RA & _)]; [reflexivity|]. cbn [lift obind].
  eapply fine_bind; [apply recurse_on_fine; [exact XN|now rewrite RA|exact GA]|]. intros a' _ HA.
  cbn [lift obind]; eapply fine_case; [apply rebuild_good; [now rewrite R1|exact G1|exact N2|exact HA]|]. intros full' _ G2. cbn [fine].
  rewrite Forall_forall in *. intros z Hz. apply In_nth_error in Hz as (j & Hj). 
  destruct (Nat.eq_dec j k) as [->|D].
  - assert (z = full') as ->; [|exact G2]. clear - Hj NC. revert k Hj NC. induction mcs as [|m mcs IH]; intros [|k] Hj NC; cbn in *; try discriminate; [congruence|eauto].
  - apply G. apply nth_error_In with (n := j). rewrite <- Hj. clear - D. revert j k D. induction mcs as [|m mcs IH]; intros [|j] [|k] D; cbn; try reflexivity; [congruence|apply IH; lia].
Qed.

Lemma Forall_upd {A} (R : A -> Prop) l : forall k a, Forall R l -> R a -> Forall R (upd l k a).
Proof. induction l as [|b l IH]; intros [|k] a F H; cbn; auto; inversion F; subst; constructor; auto. Qed.
Lemma Forall_del {A} (R : A -> Prop) l : forall k, Forall R l -> Forall R (del_at l k).
Proof.
  unfold del_at. induction l as [|b l IH]; intros [|k] F; [constructor|constructor| |].
  - now inversion F.
  - inversion F as [|? ? F1 F2]; subst. constructor; [exact F1|apply (IH k F2)].
Qed.
Lemma Forall_insert {A} (R : A -> Prop) l : forall k a, Forall R l -> R a -> Forall R (insert_at l k a).
Proof.
  unfold insert_at. induction l as [|b l IH]; intros [|k] a F H; [constructor; auto|constructor; auto|constructor; auto|].
  inversion F as [|? ? F1 F2]; subst. constructor; [exact F1|apply (IH k a F2 H)].
Qed.
Lemma Forall_at {A} (R : A -> Prop) l k a : Forall R l -> nth_error l k = Some a -> R a.
Proof. intros F N. rewrite Forall_forall in F. apply F. eapply nth_error_In; exact N. Qed.

Section Holds.
Variable cs : list (Z * Z).
Hypothesis WF : well_formed (Z.of_nat (length (adat ax))) cs.

Lemma range_at k p : nth_error cs k = Some p -> 0 <= fst p <= snd p /\ snd p < Z.of_nat (length (adat ax)).
Proof. destruct p as [lo hi]. intros N. cbn [fst snd]. exact (proj1 WF _ _ _ N). Qed.

Lemma fit_all_good is : forall (mcs : list cluster), Forall2 holds cs mcs -> Forall good mcs -> (forall i, In i is -> (i < length cs)%nat) ->
  fine (Forall good) (lift (fit_all T mcs is)).
Proof.
  induction is as [|i is IH]; intros mcs F G HI; cbn [fit_all]; [exact G|].
  destruct (nth_error cs i) as [p|] eqn:NP; [|apply nth_error_None in NP; specialize (HI i (or_introl eq_refl)); lia].
  destruct (Forall2_nth _ _ _ F _ _ NP) as (c & NC & H). rewrite NC. destruct (range_at _ _ NP) as [R1 R2].
  pose proof (fit_true_good c (holds_rcluster _ _ H R1 R2) (Forall_at _ _ _ _ G NC)) as FG.
  destruct (fit_true T c) as [c'|e0] eqn:E; cbn [bind lift fine] in *; [destruct FG as [G' _]|exact FG].
  apply IH; [|apply Forall_upd; assumption|intros j Hj; apply HI; now right].
  apply Forall2_upd; [exact F|]. intros a Na. rewrite NP in Na. injection Na as <-.
  eapply (fit_holds T bl em ax ay ae AS0); eassumption.
Qed.

Lemma fit_last_good (mcs : list cluster) k mp : Forall2 holds cs mcs -> Forall good mcs -> (k < length cs)%nat ->
  fine (Forall good) (lift (fit_last T mcs k mp)).
Proof.
  intros F G HK. destruct (nth_error cs k) as [p|] eqn:NP; [|apply nth_error_None in NP; lia].
  destruct (Forall2_nth _ _ _ F _ _ NP) as (c & NC & H). unfold fit_last. rewrite NC. destruct (range_at _ _ NP) as [R1 R2].
  pose proof (Forall_at _ _ _ _ G NC) as GC.
  assert (X : soft (fr_out (contingent_fit w c mp 2 1)) /\ good (fr_c (contingent_fit w c mp 2 1))).
  { unfold contingent_fit. destruct (fit_due _ _ _ _); [apply fit_good; [exact (holds_rcluster _ _ H R1 R2)|exact GC]|cbn [fr_out fr_c]; split; [apply soft_ok|exact GC]]. }
  destruct X as ([(o & ->)| ->] & G'); [|reflexivity]. cbn [lift fine]. now apply Forall_upd.
Qed.
End Holds.

Lemma join_model_rem a b border : allrem a -> allrem b -> allrem (join_model w a b border).
Proof.
  intros H1 H2. unfold join_model. set (l := rev _). clearbody l.
  assert (H : allrem (pick (a ++ b) (peaks_argsort w (a ++ b)))) by (apply allrem_pick; now apply allrem_app).
  revert H. generalize (pick (a ++ b) (peaks_argsort w (a ++ b))) as m. induction l as [|i l IH]; intros m H; cbn [fold_left]; [exact H|].
  apply IH. intros p Hp. apply H. unfold join_step in Hp.
  assert (D : In p (del_at m i) -> In p m).
  { unfold del_at. intros X. rewrite <- (firstn_skipn i m). apply in_app_or in X as [X|X]; apply in_or_app; [now left|right].
    replace (S i) with (i + 1)%nat in X by lia. rewrite <- skipn_add in X. rewrite <- (firstn_skipn 1 (skipn i m)). apply in_or_app. now right. }
  destruct (_ && _ && _); [now apply D|]. destruct (negb _); [|exact Hp]. destruct (_ && _); [now apply D|exact Hp].
Qed.

Lemma first_variant_fine h bx by_ a : adj_x ax h <> [] -> r_cluster a <> [] -> good a ->
  fine (fun c => allrem (c_model c)) (first_variant T bl em pf rec depth ax ay ae h bx by_ a).
Proof.
  intros XN RN G. unfold first_variant. destruct (_ =? 2)%nat; [|exact (proj2 G)].
  set (ybl := match valuebl w (Some bl) [bx] with [] => _ | _ => _ end). clearbody ybl. unfold reduce_to.
  destruct (below_at _ _ _ _); [now apply recurse_on_fine|].
  set (c1 := set_model a (w_match_at w bx ybl (c_model a))).
  assert (G1 : good c1). { split; [apply G|]. unfold c1. cbn [set_model c_model]. destruct WB as (_ & _ & _ & MA & _). intros p Hp. exact (MA bx ybl (c_model a) (proj2 G) p Hp). }
  destruct (fit_good c1 false 0 false true RN G1) as ([(o & EO)|EO] & GF); set (f := fit w c1 false 0 false true) in *; rewrite EO; [|reflexivity].
  assert (RF : r_cluster (fr_c f) <> []).
  { destruct (fit_frame w AS0 c1 false 0 false true) as (F1 & _ & _ & F4 & F5 & _). fold f in F1, F4, F5. unfold r_cluster. rewrite F1, F4, F5. exact RN. }
  assert (GO : good (set_model (fr_c f) (c_model a))) by (split; [apply GF|apply G]).
  destruct o as [q|]; [|now apply recurse_on_fine].
  destruct (min_npars_ok _ (proj1 G)) as (mn & ->). destruct (w_growth w _ _ _); now apply recurse_on_fine.
Qed.
Lemma second_variant_fine h a : adj_x ax h <> [] -> r_cluster a <> [] -> good a ->
  fine (fun c => allrem (c_model c)) (second_variant T em pf rec depth ax ay ae h a).
Proof.
  intros XN RN G. unfold second_variant. cbn [lift obind]; eapply fine_case; [exact (fit_true_good a RN G)|]. intros c' _ [G' R'].
  apply recurse_on_fine; [exact XN|now rewrite R'|exact G'].
Qed.

Lemma combine_pair_fine cs (mcs : list cluster) pre a b post a' b' : well_formed (Z.of_nat (length (adat ax))) cs ->
  Forall2 holds (pre ++ a :: b :: post) mcs -> Forall good mcs ->
  nth_error cs (length pre) = Some a' -> nth_error cs (S (length pre)) = Some b' ->
  fst b = snd a + 1 -> 0 <= fst a <= snd a -> 0 <= fst b <= snd b -> snd b < Z.of_nat (length (adat ax)) ->
  fine (Forall good) (combine_pair T bl em pf rec depth ax ay ae cs mcs (S (length pre))).
Proof.
  intros WF F G C1 C2 TCH RA RB RN. unfold combine_pair. replace (S (length pre) - 1)%nat with (length pre) by lia.
  destruct (Forall2_nth _ _ _ F (length pre) a) as (ml & Nl & Hl). { rewrite nth_error_app2, Nat.sub_diag by lia. reflexivity. }
  destruct (Forall2_nth _ _ _ F (S (length pre)) b) as (mr & Nr & Hr). { rewrite nth_error_app2 by lia. replace (S (length pre) - length pre)%nat with 1%nat by lia. reflexivity. }
  rewrite C1, C2, Nl, Nr. pose proof (Forall_at _ _ _ _ G Nl) as Gl. pose proof (Forall_at _ _ _ _ G Nr) as Gr.
  destruct Hl as (S1 & S2 & S3 & S4 & S5 & S6 & S7), Hr as (R1 & R2 & R3 & R4 & R5 & R6 & R7). destruct ARR as (LY & LE & _). destruct SN as (_ & _ & _ & BLE & BLL & _).
  assert (NB : neighbours w ml mr).
  { unfold neighbours, data_ok. rewrite S3, S4, S5, S6, R3, R4, R5, R6, LY, LE, S7. unfold valuebl. rewrite BLL. repeat (split; [reflexivity || lia|]). auto. }
  destruct (proj1 (C41_join_adjacent w RO0 ml mr NB)) as (new & J & JR). { rewrite S7, R7. exact BLE. }
  rewrite J. cbn [lift obind]. destruct JR as (J1 & J2 & J3 & J4 & J5 & J6 & J7 & _ & JP & _ & JM1 & JM2 & JM3).
  assert (HN : holds (fst a, snd b) new). { unfold ExtractProofs.holds. rewrite J1, J2, J3, J4, J5, J6, J7. cbn [fst snd]. auto 10. }
  assert (GN : good new).
  { split.
    - destruct Gl as [Gl _]. destruct (c_pf ml) as [|f0 l0]; [contradiction|]. intros E. pose proof (proj2 (JP f0) (or_introl (or_introl eq_refl))) as I. rewrite E in I. destruct I.
    - destruct (c_model ml) as [|p1 m1] eqn:M1; [rewrite JM2 by reflexivity; apply Gr|]. rewrite <- M1 in *.
      destruct (c_model mr) as [|p2 m2] eqn:M2; [rewrite JM1 by reflexivity; apply Gl|]. rewrite <- M2 in *.
      destruct JM3 as (r1 & r2 & y1 & y2 & _ & _ & _ & _ & ->); [rewrite M1; discriminate|rewrite M2; discriminate|].
      destruct WB as (_ & _ & _ & MA & _). intros p Hp. refine (MA _ _ _ _ p Hp). intros q Hq. revert q Hq. change (allrem (join_model w (c_model ml) (c_model mr) (w_mid w r1 r2))).
      apply join_model_rem; [apply Gl|apply Gr]. }
  destruct a' as [la ha], b' as [lb hb]. pose proof (proj1 WF _ _ _ C1) as RG1. pose proof (proj1 WF _ _ _ C2) as RG2.
  assert (PG : forall (l : list Z) z, length l = length (adat ax) -> 0 <= z < Z.of_nat (length (adat ax)) -> exists v, pyget l z = Ok v).
  { intros l z EL Hz. destruct (pyget_in l (Z.to_nat z) ltac:(lia)) as (v & E & _). rewrite Z2Nat.id in E by lia. eauto. }
  cbn [fst snd].
  destruct (PG (adat ax) ha eq_refl ltac:(lia)) as (x1 & ->). destruct (PG (adat ax) lb eq_refl ltac:(lia)) as (x2 & ->).
  destruct (PG (adat ay) ha LY ltac:(lia)) as (y1 & ->). destruct (PG (adat ay) lb LY ltac:(lia)) as (y2 & ->). cbn [lift obind].
  set (bx := w_mid w x1 x2). set (by_ := w_mid w y1 y2).
  set (h := neighbourhood T ax new bx). destruct (neighbourhood_rem new bx (proj2 GN)) as [N1 N2]. fold h in N1, N2.
  destruct (adj_cluster_good h N1) as [(_ & ->)|(XN & aa & -> & GA & RAA & _)]; [reflexivity|]. cbn [lift obind].
  assert (RAN : r_cluster aa <> []) by now rewrite RAA.
  eapply fine_bind; [apply first_variant_fine; [exact XN|exact RAN|exact GA]|]. intros a1 _ A1.
  eapply fine_bind; [apply second_variant_fine; [exact XN|exact RAN|exact GA]|]. intros a2 _ A2.
  destruct (copy_good (fst a, snd b) (set_model new (other_pk h))) as (rej & -> & _); [exact HN|cbn; lia|cbn; lia|split; [apply GN|exact N2]|]. cbn [lift obind].
  set (best := if w_qlt w _ _ then _ else _). assert (AB : allrem best) by (unfold best; destruct (w_qlt w _ _); assumption).
  cbn [lift obind]; eapply fine_case; [apply rebuild_good; [eapply holds_rcluster; [exact HN|cbn; lia|cbn; lia]|exact GN|exact N2|exact AB]|]. intros new' _ G2.
  cbn [fine]. apply Forall_del, Forall_upd; assumption.
Qed.

(** One iteration. *)
Lemma head_good s s1 (mcs : list cluster) m1 adj : DataClusters.next (w_rnd w) s = (s1, Ok tt) -> Forall good mcs ->
  head T bl em pf ax ay ae s1 mcs = Ok (m1, adj) -> Forall good m1.
Proof.
  intros _ G E. unfold head in E. destruct (sync T bl em pf ax ay ae s1 mcs) as [m|] eqn:SY; cbn [bind] in E; [|discriminate].
  destruct (adjacent_of s1); cbn [bind] in E; [|discriminate]. destruct (assertions s1 m a); cbn [bind] in E; [|discriminate]. injection E as <- _.
  unfold sync in SY. destruct (DataClusters.lastc s1) as [k|]; [|discriminate]. destruct (DataClusters.cut s1 k) as [sl|]; cbn [bind] in SY; [|discriminate].
  destruct (_ <? _)%nat.
  - destruct (fresh T bl em pf ax ay ae sl) as [c|] eqn:FR; cbn [bind] in SY; [|discriminate]. injection SY as <-. apply Forall_insert; [exact G|].
    unfold fresh in FR. destruct (make_holds T pf [] ax ay ae _ (Some bl) em c FR) as (M1 & _ & _ & _ & _ & _ & _ & _ & M9).
    split; [now rewrite M9|]. rewrite M1. intros p [].
  - destruct (nth_error mcs k) as [c|] eqn:NC; [|discriminate]. destruct (change_slice w c _ _) as [c' [u|e]] eqn:CS; [|discriminate].
    injection SY as <-. apply Forall_upd; [exact G|]. pose proof (Forall_at _ _ _ _ G NC) as GC.
    assert (X : c_model c' = c_model c /\ c_pf c' = c_pf c).
    { unfold change_slice, change_slice_from in CS. destruct (if _ && _ then _ else _) as [v1|]; [|discriminate].
      destruct (if _ && _ then _ else _) as [v2|]; [|discriminate]. injection CS as <-. split; reflexivity. }
    destruct X as [X1 X2]. split; [rewrite X2; apply GC|rewrite X1; apply GC].
Qed.

Lemma iteration_fine mp s (mcs : list cluster) s1 : inv T bl cres em ax ay ae yd s mcs -> Forall good mcs -> DataClusters.next (w_rnd w) s = (s1, Ok tt) ->
  fine (fun t => Forall good (snd t)) (iteration T bl em pf rec depth ax ay ae mp s1 mcs).
Proof.
  intros I G N. destruct SN as (H1 & H2 & H3 & H4 & H5 & H6). pose proof ARR as (A1 & A2 & A3 & A4).
  destruct (head_ok T bl cres em pf rec ax ay ae H1 H3 H5 A1 A2 A3 A4 _ _ _ _ I N) as (m1 & l & m & EH & F & Hm & HT & FA).
  unfold iteration. rewrite EH. cbn [lift obind]. pose proof (head_good _ _ _ _ _ N G EH) as G1.
  pose proof I as [R M NT].
  assert (R1 : DataClustersSpec.reach (w_rnd w) (t_argsort T) (adat ax) yd cres s1) by (replace s1 with (fst (DataClusters.next (w_rnd w) s)) by (rewrite N; reflexivity); now constructor).
  destruct (DataClustersProps.C01_clusters_well_formed _ _ _ _ _ _ H1 H3 A3 A4 R1) as (W & _). pose proof W as (W1 & W2).
  destruct (DataClustersProps.C02_next_progress _ _ _ _ _ _ _ H1 H3 A3 A4 R N) as (t & k & lo & hi & LP & _ & _ & _ & _ & LC & NK & _).
  assert (HK : (k < length (dcl s1))%nat) by (apply nth_error_Some; congruence).
  assert (HL : (length (dcl s1) <= length (adat ax))%nat).
  { assert (X : forall i lo hi, nth_error (dcl s1) i = Some (lo, hi) -> Z.of_nat i <= lo).
    { induction i as [|i IH]; intros l0 h0 E0; [pose proof (W1 _ _ _ E0); lia|].
      destruct (nth_error (dcl s1) i) as [[l1 h1]|] eqn:E1; [|exfalso; apply nth_error_None in E1; assert (S i < length (dcl s1))%nat by (apply nth_error_Some; congruence); lia].
      specialize (IH _ _ eq_refl). pose proof (W1 _ _ _ E1). pose proof (W2 i (S i) _ _ _ _ ltac:(lia) E1 E0). lia. }
    destruct (length (dcl s1)) as [|n] eqn:EL; [lia|]. destruct (nth_error (dcl s1) n) as [[l0 h0]|] eqn:E0; [|apply nth_error_None in E0; lia].
    pose proof (X _ _ _ E0). pose proof (W1 _ _ _ E0). lia. }
  assert (RG : m <> 0%nat -> (l + m <= length (dcl s1))%nat).
  { intros M0. assert (TL : touching (dcl s1) (l + m - 2)) by (apply HT; lia). apply DataClustersAdj.touch_iff in TL. apply DataClustersAdj.touch_range in TL. lia. }
  unfold body. rewrite LC, LP.
  cbn [lift obind]; eapply fine_case; [apply (fit_all_good (dcl s1) W (seq l m) m1 F G1); intros i Hi; apply in_seq in Hi; lia|]. intros mA EA GA. pose proof (fit_all_holds T bl em ax ay ae H2 _ _ _ _ EA F) as FA1.
  cbn [lift obind]; eapply fine_case; [exact (fit_last_good (dcl s1) W mA k mp FA1 GA HK)|]. intros mB EB GB.
  pose proof (fit_last_holds T bl em ax ay ae H2 _ _ _ _ _ EB FA1) as FB.
  apply (fine_bind (fun mC => Forall good mC /\ Forall2 holds (dcl s1) mC)).
  { destruct (_ || _); [|split; assumption]. pose proof (boundary_fine (dcl s1) mB k FB GB W HK HL) as BF.
    destruct (boundary T bl em pf rec depth ax ay ae mB k) as [[mC|e]|] eqn:EC; [|exact BF|exact BF]. split; [exact BF|].
    exact (boundary_holds T bl em pf rec depth ax ay ae H2 _ _ _ _ EC FB). }
  intros mC _ [GC FC].
  assert (CA : fine (Forall good) (combine_all T bl em pf rec depth ax ay ae (dcl s1) mC (rev (tl (seq l m))))).
  { destruct Hm as [-> |Hm]; [exact GC|]. specialize (RG ltac:(lia)).
    destruct (split_list (dcl s1) l ltac:(lia)) as (pre & rest & ES & LPR).
    destruct (split_list rest m) as (runl & post & ER & LR). { rewrite ES, app_length in RG. lia. }
    subst rest.
    assert (NTH : forall i p, nth_error runl i = Some p -> nth_error (dcl s1) (l + i) = Some p).
    { intros i q Hi. rewrite ES, nth_error_app2 by lia. replace (l + i - length pre)%nat with i by lia. rewrite nth_error_app1; [exact Hi|apply nth_error_Some; congruence]. }
    assert (RNG : forall i q, nth_error runl i = Some q -> 0 <= fst q <= snd q /\ snd q < Z.of_nat (length (adat ax))).
    { intros i [lo' hi'] Hi. cbn [fst snd]. exact (W1 _ _ _ (NTH _ _ Hi)). }
    assert (TCH : forall i q r, nth_error runl i = Some q -> nth_error runl (S i) = Some r -> (S i < m)%nat -> fst r = snd q + 1).
    { intros i q r Hi Hj Hlt. assert (TT : touching (dcl s1) (l + i)) by (apply HT; lia). apply nth_touch in TT as (q' & r' & B1 & B2 & B3).
      rewrite (NTH _ _ Hi) in B1. replace (S (l + i)) with (l + S i)%nat in B2 by lia. rewrite (NTH _ _ Hj) in B2. congruence. }
    rewrite ES in FC. destruct Hm as [-> | ->].
    - destruct runl as [|a [|b [|? ?]]]; try discriminate LR. cbn [seq tl rev app combine_all].
      eapply fine_bind with (P1 := Forall good); [|intros mX _ GX; exact GX]. rewrite <- LPR.
      destruct (RNG 0%nat a eq_refl) as [B1 B2]. destruct (RNG 1%nat b eq_refl) as [B3 B4].
      eapply (combine_pair_fine (dcl s1) mC pre a b post a b); try eassumption.
      + rewrite LPR. specialize (NTH 0%nat a eq_refl). now rewrite Nat.add_0_r in NTH.
      + rewrite LPR. specialize (NTH 1%nat b eq_refl). now rewrite Nat.add_1_r in NTH.
      + apply (TCH 0%nat a b); cbn; auto; lia.
    - destruct runl as [|a [|b [|c [|? ?]]]]; try discriminate LR. cbn [seq tl rev app combine_all].
      destruct (RNG 0%nat a eq_refl) as [B1 B2]. destruct (RNG 1%nat b eq_refl) as [B3 B4]. destruct (RNG 2%nat c eq_refl) as [B5 B6].
      assert (T1 : fst b = snd a + 1) by (apply (TCH 0%nat a b); cbn; auto; lia). assert (T2 : fst c = snd b + 1) by (apply (TCH 1%nat b c); cbn; auto; lia).
      pose proof (NTH 0%nat a eq_refl) as X0. pose proof (NTH 1%nat b eq_refl) as X1. pose proof (NTH 2%nat c eq_refl) as X2.
      assert (LPA : length (pre ++ [a]) = S l) by (rewrite app_length, LPR; cbn; lia).
      eapply fine_bind with (P1 := Forall good).
      + rewrite <- LPA. eapply (combine_pair_fine (dcl s1) mC (pre ++ [a]) b c post b c); try eassumption.
        * rewrite <- app_assoc. exact FC.
        * rewrite LPA. now rewrite Nat.add_1_r in X1.
        * rewrite LPA. replace (S (S l)) with (l + 2)%nat by lia. exact X2.
      + intros mX EX GX. eapply fine_bind with (P1 := Forall good); [|intros mY _ GY; exact GY].
        assert (FX : Forall2 holds ((pre ++ [a]) ++ (fst b, snd c) :: post) mX).
        { eapply (combine_pair_holds T bl em pf rec depth ax ay ae H1 H2 H4 H5 A1 A2 (dcl s1) mC (pre ++ [a]) b c post);
            [exact FC|rewrite <- app_assoc; reflexivity|exact T2|exact B3|exact B5|exact B6|]. rewrite LPA. exact EX. }
        rewrite <- LPR. eapply (combine_pair_fine (dcl s1) mX pre a (fst b, snd c) post a b); cbn [fst snd]; try eassumption; [rewrite <- app_assoc in FX; exact FX| | |lia].
        * rewrite LPR. now rewrite Nat.add_0_r in X0.
        * rewrite LPR. now rewrite Nat.add_1_r in X1. }
  eapply fine_bind; [exact CA|]. intros mD _ GD. destruct (seq l m) as [|a0 adj] eqn:EQ; [exact GD|]. rewrite <- EQ.
  assert (M0 : m <> 0%nat) by (intros ->; discriminate EQ).
  assert (Hm0 : (m =? 0)%nat = false) by (apply Nat.eqb_neq; lia). rewrite Hm0 in FA. rewrite EQ in *.
  destruct (DataClustersProps.C08_combine_adjacent s1 [a0 :: adj] _ W FA) as (sX & CC & _); [discriminate|].
  rewrite CC. exact GD.
Qed.

Lemma loop_fine mp : forall fuel s (mcs : list cluster), at_loop_head T bl cres em pf rec depth ax ay ae yd mp s mcs -> Forall good mcs -> (DataClusters.cur s < fuel)%nat ->
  fine (fun u => Forall good (snd u)) (loop T bl em pf rec depth ax ay ae fuel mp s mcs).
Proof.
  induction fuel as [|fuel IH]; intros s mcs H G C; [lia|]. cbn [loop]. pose proof (head_inv T bl cres em pf rec depth ax ay ae yd SN ARR _ _ _ H) as I.
  destruct (DataClusters.next (w_rnd w) s) as [s1 [u|e]] eqn:N.
  - destruct u. eapply fine_bind; [eapply iteration_fine; eassumption|]. intros [s2 m2] E G2. cbn [snd] in G2. apply IH; [eapply at_again; eauto|exact G2|].
    unfold iteration in E. apply obind_ok in E as ([m1 adj] & _ & E). rewrite (body_cur T bl em pf rec depth ax ay ae _ _ _ _ _ _ E).
    pose proof (next_cur T bl cres ax ay ae yd SN ARR _ _ (i_reach _ _ _ _ _ _ _ _ _ _ I) N). lia.
  - destruct (C49_one_model_covers_everything T bl cres em pf rec depth ax ay ae yd SN ARR _ _ _ _ _ H N) as (-> & _). exact G.
Qed.

Lemma start_fine : 0 <= cres -> length yd = length (adat ax) -> exists s c mp, start T bl cres em pf ax ay ae yd = Ok (s, [c], mp) /\ good c.
Proof.
  intros HC LY. destruct SN as (H1 & H2 & H3 & H4 & H5 & H6). pose proof ARR as (A1 & A2 & A3 & A4). unfold start.
  assert (EC : exists s0 top, DataClusters.construct (t_argsort T) (adat ax) yd cres = Ok s0 /\ dcl s0 = [(top, top)]).
  { unfold DataClusters.construct. rewrite LY, Nat.eqb_refl. cbn [negb]. destruct (Z.ltb_spec cres 0); [lia|].
    destruct (Nat.eqb_spec (length (adat ax)) 0) as [C|NZ]; [apply length_zero_iff_nil in C; contradiction|].
    destruct (H3 yd) as [PM _]. pose proof (Permutation_length PM) as PL. rewrite map_length, seq_length in PL.
    unfold pyget. assert (LA : length (t_argsort T yd) = length (adat ax)) by lia. rewrite LA.
    destruct (Z.ltb_spec (-1) 0); [|lia]. destruct (Z.ltb_spec (-1 + Z.of_nat (length (adat ax))) 0) as [C|C]; [lia|].
    destruct (Z.leb_spec (Z.of_nat (length (adat ax))) (-1 + Z.of_nat (length (adat ax)))) as [C2|C2]; [lia|].
    cbn [orb]. destruct (nth_error (t_argsort T yd) (Z.to_nat (-1 + Z.of_nat (length (adat ax))))) as [top|] eqn:NT; [|apply nth_error_None in NT; lia].
    cbn [bind]. eexists _, top. split; [reflexivity|]. reflexivity. }
  destruct EC as (s0 & top & CS & EC). rewrite CS. cbn [bind]. unfold DataClusters.cut. rewrite EC. cbn [nth_error bind].
  assert (R : DataClustersSpec.reach (w_rnd w) (t_argsort T) (adat ax) yd cres s0) by now constructor.
  destruct (DataClustersProps.C01_clusters_well_formed _ _ _ _ _ _ H1 H3 A3 A4 R) as ((W1 & _) & _).
  pose proof (W1 0%nat top top ltac:(rewrite EC; reflexivity)) as RGE.
  destruct (fresh_holds T bl em pf ax ay ae H1 H5 A1 A2 (top, top) ltac:(cbn; lia) ltac:(cbn; lia)) as (c & F & H). cbn [fst snd] in F. rewrite F. cbn [bind].
  unfold minpoints_of. destruct (pymax_ok (map (fun f => t_minpoints T em (w_func_npars w f)) pf)) as (mp & ->).
  { destruct pf; [contradiction|discriminate]. }
  cbn [bind]. exists s0, c, mp. split; [reflexivity|].
  unfold fresh in F. destruct (make_holds T pf [] ax ay ae _ (Some bl) em c F) as (M1 & _ & _ & _ & _ & _ & _ & _ & M9).
  split; [now rewrite M9|]. rewrite M1. intros p [].
Qed.

Lemma finish_fine (c : cluster) ip : models_range bl em ax ay ae (0, Z.of_nat (length (adat ax)) - 1) c -> good c -> allrem ip ->
  fine good (finish T depth [c] ip).
Proof.
  intros (M1 & M2 & M3 & M4 & M5 & M6 & M7) G AI. cbn [fst snd] in *. unfold finish.
  assert (LX : (0 < length (adat ax))%nat) by (destruct ARR as (_ & _ & _ & A4); destruct (adat ax); [contradiction|cbn; lia]).
  assert (EA : exists c1, addexternalpeaks T c ip = Ok c1 /\ c_pf c1 = c_pf c).
  { unfold addexternalpeaks, replacepeaks, slice_bounds. cbn -[Z.of_nat]. unfold clamp. cbn -[Z.of_nat].
    assert (Z.to_nat (Z.min 0 (Z.of_nat (length (c_model c)))) = 0%nat) as -> by lia. cbn [Nat.max]. unfold slice. cbn [Nat.sub firstn existsb].
    eexists. split; [reflexivity|reflexivity]. }
  destruct EA as (c1 & E1 & E2). rewrite E1. cbn [lift obind].
  destruct (add_frame T bl SN _ _ _ E1) as (F1 & F2 & F3 & F4 & F5 & F6 & F7 & F8).
  assert (AR1 : allrem (c_model c1)). { eapply allrem_perm; [symmetry; exact F8|]. apply allrem_app; [exact AI|apply G]. }
  destruct ARR as (A1 & A2 & _). destruct WB as (ES & TM & EST & MA & AM & ASY).
  pose proof tame as ET.
  destruct (C42_normal_return w (t_qk T) (t_qargmax T) unlab AS0 ES ET AM ASY RO0) with (c := c1) (fuel := S (length (c_model c1))) as (m & EP).
  - apply SN.
  - lia.
  - rewrite F7, F3, M3, M4. unfold vadd. rewrite map_length, combine_length, (vsum_len T bl) by exact SN. lia.
  - rewrite F4, F3, M3, M5. exact A2.
  - rewrite F1, F2, F3, M3. lia.
  - exact AR1.
  - rewrite EP.
    destruct (C42_terminates_removing_only_removable w (t_qk T) (t_qargmax T) unlab AS0 ES c1 (S (length (c_model c1))) ltac:(lia)) as (m' & out & gone & E3 & PM & _).
    rewrite EP in E3. injection E3 as <- <-.
    assert (AM1 : allrem m).
    { apply allrem_sig. intros x Hx. apply (proj1 (allrem_sig (c_model c1)) AR1). unfold sig. rewrite PM. apply in_or_app. now left. }
    assert (G2 : good (set_model c1 m)) by (split; [cbn [set_model c_pf]; rewrite E2; apply G|exact AM1]).
    destruct (depth =? 1)%nat; [|exact G2].
    destruct (fit_good (set_model c1 m) false 0 true true) as ([(o & ->)| ->] & GF); [|exact G2|exact GF|reflexivity].
    intros E. apply (f_equal (@length Z)) in E. unfold r_cluster in E. cbn [set_model c_r c_start c_stop] in E. rewrite slice_length, F1, F2, F3, M3 in E. cbn in E. lia.
Qed.

Lemma run_fine ip : 0 <= cres -> length yd = length (adat ax) -> allrem ip ->
  fine good (run T bl cres em pf rec depth ax ay ae yd ip).
Proof.
  intros HC LY AI. unfold run. destruct (start_fine HC LY) as (s & c & mp & E & G). rewrite E. cbn [lift obind].
  pose proof (at_start T bl cres em pf rec depth ax ay ae yd mp s [c] E) as AH.
  apply (fine_bind (fun u => exists c0, snd u = [c0] /\ good c0 /\ models_range bl em ax ay ae (0, Z.of_nat (length (adat ax)) - 1) c0)).
  - pose proof (loop_fine mp (S (length (adat ax))) s [c] AH (Forall_cons _ G (Forall_nil _)) (start_cur T bl cres em pf ax ay ae yd SN _ _ _ E)) as LF.
    destruct (loop T bl em pf rec depth ax ay ae (S (length (adat ax))) mp s [c]) as [[u|e]|] eqn:EL; [|exact LF|exact LF].
    cbn [fine] in *. destruct (loop_result T bl cres em pf rec depth ax ay ae yd SN ARR _ _ _ _ _ AH EL) as (c0 & E0 & M0). exists c0.
    split; [exact E0|]. split; [|exact M0]. rewrite E0 in LF. now inversion LF.
  - intros u _ (c0 & -> & G0 & M0). exact (finish_fine c0 ip M0 G0 AI).
Qed.
End OneCall.

(** ** C201 *)
(** With a well-behaved optimiser and estimator an extraction on increasing data with at
    least one peak function, a nonnegative resolution and removable initial peaks ends
    with a model or with ValueError -- never with another exception, and it ends. *)
Theorem C201_model_or_valueerror :
  0 <= cres ->
  forall fuel depth x y e ip, (0 < fuel)%nat -> (4 <= fuel + depth)%nat ->
    DataClustersSpec.increasing x -> x <> [] -> length y = length x -> length e = length x ->
    (forall p, In p ip -> w_removable w p = true) ->
    (exists c, extract T bl cres em pf fuel depth x y e ip = Some (Ok c) /\ forall p, In p (c_model c) -> w_removable w p = true) \/
    extract T bl cres em pf fuel depth x y e ip = Some (Err ValueError).
Proof.
  intros HC. assert (G : forall fuel depth x y e ip, (0 < fuel)%nat -> (4 <= fuel + depth)%nat ->
    DataClustersSpec.increasing x -> x <> [] -> length y = length x -> length e = length x -> allrem ip ->
    fine good (extract T bl cres em pf fuel depth x y e ip)).
  2:{ intros fuel depth x y e ip H1 H2 H3 H4 H5 H6 H7. pose proof (G fuel depth x y e ip H1 H2 H3 H4 H5 H6 H7) as X.
      destruct (extract T bl cres em pf fuel depth x y e ip) as [[c|er]|]; cbn [fine] in X; [|right; now rewrite X|destruct X]. left. exists c. split; [reflexivity|apply X]. }
  induction fuel as [|fuel IH]; intros depth x y e ip HF HD HI HN LY LE AI; [lia|]. cbn [extract].
  assert (LS : forall v, length v = length x -> length (vsub w y v) = length x).
  { intros v Hv. rewrite (ExtractProps.vsub_len T); congruence. }
  assert (LV : length (vsum w x ip) = length x) by (apply (vsum_len T bl); exact SN).
  apply run_fine; [| |exact HC| |exact AI].
  - unfold arrays_ok. cbn [adat]. rewrite LS by exact LV. auto.
  - intros D3 rx ry re H1 H2 H3 H4. destruct rx as [|r0 rx]; [contradiction|].
    apply (fine_weaken good); [|intros c Gc; exact (proj2 Gc)]. apply IH; [lia|lia|exact H1|exact H2|exact H3|rewrite edy_len; congruence|intros p []].
  - cbn [adat]. assert (LB : length (w_blvalue w bl x) = length x) by apply SN.
    rewrite (ExtractProps.vsub_len T); rewrite LS by exact LB; [reflexivity|exact LV].
Qed.
End Total.
Print Assumptions C201_model_or_valueerror.

(** ** C201 is about cases that occur *)
Lemma vbehaved : well_behaved vtools.
Proof.
  split; [intros m b c n ps ob out E; injection E as <- <- <-; induction m; constructor; auto|].
  split; [intros; now left|]. split; [|split; [intros a b m H; exact H|split; [exact zargmax_ok|intros a b; cbn; lia]]].
  intros c. cbn [vtools t_w vworld w_estimate w_removable]. unfold tallest. destruct (combine _ _); reflexivity.
Qed.
Example C201_nonvacuous :
  sane vtools 0 /\ well_behaved vtools /\ DataClustersSpec.increasing vx /\
  exists c, extract vtools 0 2 0 [7%nat] 3 1 vx vy ve [xp 9 1 true] = Some (Ok c) /\ (5 < length (c_model c))%nat.
Proof.
  split; [apply vsane|]. split; [exact vbehaved|]. split; [apply C50_three_levels_are_reached|].
  eexists. split; [vm_compute; reflexivity|]. vm_compute. lia.
Qed.

(** The estimator may put a peak left of the cluster; the value of a peak is constant, the
    optimiser does nothing. *)
Definition left_of (c : cluster xpeak Z) : result (option xpeak) :=
  match r_cluster c with [] => Err EstimationError | r :: _ => Ok (Some (xp (r - 8) 5 true)) end.
Definition uworld : world xpeak Z Z :=
  mkWorld (fun x => x) (fun p => fst (fst p)) snd (fun _ => false)
    (fun p r => map (fun _ => snd (fst p)) r) (fun cf p => 3%nat) (fun cf b => 1%nat) (fun b r => map (fun _ => b) r) Z.eqb isort (fun _ => 3%nat)
    (fun c => 0) Z.ltb (fun _ _ _ => false) left_of idle (fun a b => (a + b) / 2) (fun _ _ m => m).
Definition utools : xtools xpeak Z Z :=
  mkTools uworld (fun _ _ => 0) zargmax DataClustersExamples.isort (fun _ n => Z.of_nat n) (fun z => z / 20 + 1).
Definition ux : list Z := map Z.of_nat (seq 0 20).
Definition uy : list Z := [1; 2; 65; 3; 4; 5; 6; 7; 8; 9; 10; 80; 90; 85; 70; 84; 88; 83; 60; 55].
Definition ue : list Z := map (fun _ => 1) ux.

(** ** C201 fails: a ValueError for harmless data *)
(** Three peaks; the cluster that reaches the right end of the data is number 1 and its
    peaks lie left of its first point but right of x[1] = 1 (the border is read with the
    number of the cluster): no data is left to fit, and max() of nothing raises. *)
Theorem C201_always_a_model_refuted :
  exists (T : xtools xpeak Z Z) x y e,
    sane T 0 /\ well_behaved T /\ DataClustersSpec.increasing x /\ length y = length x /\ length e = length x /\
    (forall d, In d e -> 0 < d) /\
    (* even the peaks found are fitted without trouble, and none is protected *)
    (forall m b c n, w_engine (t_w T) m b c n = ((m, b), Ok tt)) /\
    extract T 0 2 0 [7%nat] 3 1 x y e [] = Some (Err ValueError).
Proof.
  exists utools, ux, uy, ue. split.
  { split; [split; intros; cbn [w_rnd t_w utools uworld]; lia|]. split; [exact isort_ok|]. split; [exact DataClustersExamples.isort_ok|].
    split; [apply Z.eqb_refl|]. split; intros; apply map_length. }
  split.
  { split; [intros m b c n ps ob out E; injection E as <- <- <-; induction m; constructor; auto|].
    split; [intros; now left|]. split; [|split; [intros a b m H; exact H|split; [exact zargmax_ok|intros a b; cbn; lia]]].
    intros c. cbn [utools t_w uworld w_estimate w_removable]. unfold left_of. destruct (r_cluster c); reflexivity. }
  split.
  { intros i j a b Hij Hi Hj. unfold ux in Hi, Hj. rewrite nth_error_map in Hi, Hj.
    destruct (nth_error (seq 0 20) i) as [u|] eqn:E1; [|discriminate]. destruct (nth_error (seq 0 20) j) as [v|] eqn:E2; [|discriminate].
    apply DataClustersAdj.nth_seq_error in E1 as [-> _]. apply DataClustersAdj.nth_seq_error in E2 as [-> _]. injection Hi as <-. injection Hj as <-. lia. }
  split; [reflexivity|]. split; [reflexivity|]. split.
  { intros d Hd. unfold ue in Hd. apply in_map_iff in Hd as (z & <- & _). lia. }
  split; [reflexivity|]. vm_compute. reflexivity.
Qed.
Print Assumptions C201_always_a_model_refuted.

(** ** C202: the neighbourhood of a border *)
Section Neighbourhood.
Context {P B Q : Type}.
Variable T : xtools P B Q.
Notation w := (t_w T).
Variable ax : array.

Definition left_of_border (b : Z) (p : P) : Prop := match w_position w p with Some x => x < b | None => False end.

Lemma pick_prefix {A} (L : list A) : forall pre R, pick (pre ++ L ++ R) (seq (length pre) (length L)) = L.
Proof.
  induction L as [|a L IH]; intros pre R; [reflexivity|]. cbn [length seq]. change (pick (pre ++ (a :: L) ++ R) (length pre :: seq (S (length pre)) (length L)))
    with (match nth_error (pre ++ (a :: L) ++ R) (length pre) with Some a => [a] | None => [] end ++ pick (pre ++ (a :: L) ++ R) (seq (S (length pre)) (length L))).
  rewrite nth_error_app2, Nat.sub_diag by lia. cbn [nth_error app]. f_equal.
  specialize (IH (pre ++ [a]) R). rewrite app_length, <- app_assoc in IH. cbn [length app] in IH. replace (length pre + 1)%nat with (S (length pre)) in IH by lia. exact IH.
Qed.
Lemma last_case {A} (l : list A) : l = [] \/ exists l' a, l = l' ++ [a].
Proof. destruct l as [|a l]; [now left|right]. destruct (exists_last (l := a :: l)) as (l' & b & E); [discriminate|]. eauto. Qed.
Lemma pick_one {A} (l : list A) i a : nth_error l i = Some a -> pick l [i] = [a].
Proof. intros N. unfold pick. cbn [flat_map]. now rewrite N. Qed.

(** The peaks of a cluster are divided at the border; the near ones are the last one on the
    left and the first one on the right, the others are all the rest, in order. *)
Lemma split_peaks (m : list P) border : pos_sorted (w_position w) m ->
  exists L R, m = L ++ R /\ searchsorted_pos (map (w_position w) m) border = length L /\
    (forall p, In p L -> left_of_border border p) /\ (forall p, In p R -> ~ left_of_border border p).
Proof.
  intros S. set (k := searchsorted_pos (map (w_position w) m) border).
  assert (HK : (k <= length m)%nat) by (unfold k; rewrite <- (map_length (w_position w) m); apply searchsorted_le).
  exists (firstn k m), (skipn k m). rewrite firstn_skipn, firstn_length. split; [reflexivity|]. split; [lia|].
  assert (S' : StronglySorted (fun a b => pos_le a b = true) (map (w_position w) m)).
  { clear - S. induction S as [|a l S IH F]; cbn [map]; constructor; [exact IH|]. rewrite Forall_forall in *. intros x Hx. apply in_map_iff in Hx as (q & <- & Hq). now apply F. }
  assert (X : forall i p, nth_error m i = Some p -> ((i < k)%nat <-> left_of_border border p)).
  { intros i p N. unfold left_of_border, k. apply (searchsorted_spec _ border S' i). rewrite nth_error_map, N. reflexivity. }
  split; intros p Hp; apply In_nth_error in Hp as (i & Ni).
  - rewrite nth_error_firstn in Ni. destruct (Nat.ltb_spec i k) as [Hi|]; [|discriminate]. now apply (X i p).
  - rewrite nth_error_skipn in Ni. intros C. apply (X _ _ Ni) in C. lia.
Qed.

Theorem C202_near_and_other_peaks :
  forall (c : cluster P B) border, pos_sorted (w_position w) (c_model c) ->
    exists L R, c_model c = L ++ R /\
      (forall p, In p L -> left_of_border border p) /\ (forall p, In p R -> ~ left_of_border border p) /\
      near_pk (neighbourhood T ax c border) = skipn (length L - 1) L ++ firstn 1 R /\
      other_pk (neighbourhood T ax c border) = firstn (length L - 1) L ++ skipn 1 R.
Proof.
  intros c border S. destruct (split_peaks _ border S) as (L & R & E & EK & HL & HR). exists L, R. split; [exact E|]. split; [exact HL|]. split; [exact HR|].
  unfold neighbourhood. cbn [near_pk other_pk]. rewrite EK, E, app_length. clear EK E S HL HR.
  assert (HO : forall L' l0, L = L' ++ l0 -> (length l0 <= 1)%nat -> length L' = (length L - 1)%nat ->
     pick (L ++ R) (seq 0 (length L - 1) ++ seq (S (length L)) (length L + length R - S (length L))) = L' ++ skipn 1 R).
  { intros L' l0 E HL E1. rewrite pick_app, <- E1. f_equal.
    - rewrite E, <- app_assoc. exact (pick_prefix L' [] (l0 ++ R)).
    - destruct R as [|r R]; [cbn [length skipn]; replace (length L + 0 - S (length L))%nat with 0%nat by lia; reflexivity|].
      cbn [length skipn]. replace (length L + S (length R) - S (length L))%nat with (length R) by lia.
      pose proof (pick_prefix R (L ++ [r]) []) as X. rewrite app_nil_r, app_length, <- app_assoc in X. cbn [length app] in X.
      replace (length L + 1)%nat with (S (length L)) in X by lia. exact X. }
  assert (HRN : pick (L ++ R) (if (length L =? length L + length R)%nat then [] else [length L]) = firstn 1 R).
  { destruct R as [|r R]; [rewrite Nat.add_0_r, Nat.eqb_refl; reflexivity|].
    destruct (Nat.eqb_spec (length L) (length L + length (r :: R))) as [C|_]; [cbn in C; lia|].
    cbn [firstn]. apply pick_one. rewrite nth_error_app2, Nat.sub_diag by lia. reflexivity. }
  rewrite pick_app, HRN. destruct (last_case L) as [->|(L' & p & ->)].
  - cbn [length Nat.eqb]. split; [reflexivity|]. apply (HO [] []); cbn; auto.
  - rewrite app_length in *. cbn [length] in *. replace (length L' + 1 - 1)%nat with (length L') in * by lia.
    destruct (Nat.eqb_spec (length L' + 1) 0) as [C|_]; [lia|]. split.
    + f_equal. rewrite skipn_app, skipn_all, Nat.sub_diag. cbn [skipn app].
      apply pick_one. rewrite <- app_assoc, nth_error_app2, Nat.sub_diag by lia. reflexivity.
    + rewrite firstn_app, firstn_all, Nat.sub_diag. cbn [firstn]. rewrite app_nil_r. apply (HO L' [p]); [reflexivity|cbn; lia|reflexivity].
Qed.

Lemma ss_left (l : list Z) v : DataClustersSpec.increasing l -> forall j a, nth_error l j = Some a -> ((j < searchsorted_left l v)%nat <-> a < v).
Proof.
  induction l as [|b l IH]; intros INC j a N; [destruct j; discriminate|].
  assert (INC' : DataClustersSpec.increasing l) by (intros i k u z Hik Hi Hk; exact (INC (S i) (S k) u z ltac:(lia) Hi Hk)).
  cbn [searchsorted_left]. destruct j as [|j].
  - injection N as ->. destruct (Z.ltb_spec a v); split; lia.
  - cbn [nth_error] in N. pose proof (INC 0%nat (S j) b a ltac:(lia) eq_refl N). specialize (IH INC' j a N).
    destruct (Z.ltb_spec b v); split; try lia; intros; try (apply IH; lia).
Qed.
Lemma ss_left_le (l : list Z) v : (searchsorted_left l v <= length l)%nat.
Proof. induction l as [|a l IH]; cbn; [lia|]. destruct (_ <? _); lia. Qed.

Lemma ss_upper (p : option Z) b i x : DataClustersSpec.increasing (adat ax) -> nth_error (adat ax) i = Some x ->
  match p with Some z => z < b | None => False end -> b <= x -> (ss ax p <= i)%nat.
Proof.
  intros INC N H Hb. destruct p as [z|]; [|destruct H]. cbn [ss].
  destruct (Nat.le_gt_cases (searchsorted_left (adat ax) z) i) as [|C]; [assumption|]. apply (ss_left _ z INC i x N) in C. lia.
Qed.
Lemma ss_lower (p : option Z) b i x : DataClustersSpec.increasing (adat ax) -> nth_error (adat ax) i = Some x ->
  ~ match p with Some z => z < b | None => False end -> x <= b -> (i <= ss ax p)%nat.
Proof.
  intros INC N H Hb. assert (Hi : (i < length (adat ax))%nat) by (apply nth_error_Some; congruence). destruct p as [z|]; cbn [ss]; [|lia].
  destruct (Nat.le_gt_cases i (searchsorted_left (adat ax) z)) as [|C]; [assumption|]. exfalso.
  destruct (nth_error (adat ax) (searchsorted_left (adat ax) z)) as [u|] eqn:NU; [|apply nth_error_None in NU; lia].
  pose proof (INC _ _ _ _ C NU N). assert (~ (u < z)) by (intros D; apply (ss_left _ z INC _ u NU) in D; lia). lia.
Qed.

(** The range of data fitted around a border where two clusters meet (the border is at or
    between the points i and i+1 of the cluster): it contains both points. *)
Theorem C202_range_at_a_join :
  forall (c : cluster P B) border i x1 x2, pos_sorted (w_position w) (c_model c) -> DataClustersSpec.increasing (adat ax) ->
    nth_error (adat ax) i = Some x1 -> nth_error (adat ax) (S i) = Some x2 -> x1 <= border <= x2 ->
    (c_start c <= i)%nat -> (S i < c_stop c)%nat ->
    (h_lo (neighbourhood T ax c border) <= i)%nat /\ (S i < h_hi (neighbourhood T ax c border))%nat.
Proof.
  intros c border i x1 x2 S INC N1 N2 HB HS HE. destruct (split_peaks _ border S) as (L & R & E & EK & HL & HR).
  assert (HI : (Datatypes.S i < length (adat ax))%nat) by (apply nth_error_Some; congruence).
  unfold neighbourhood. cbn [h_lo h_hi]. rewrite EK. split.
  - destruct (Nat.leb_spec (length L) 1) as [_|C]; [lia|].
    assert (X : (ss ax (match nth_error (c_model c) (length L - 2) with Some p => w_position w p | None => None end) <= Datatypes.S i)%nat); [|lia].
    destruct (nth_error (c_model c) (length L - 2)) as [p|] eqn:NP.
    + apply (ss_upper _ border _ x2 INC N2); [|lia]. apply HL. rewrite E, nth_error_app1 in NP by lia. eapply nth_error_In; exact NP.
    + exfalso. apply nth_error_None in NP. rewrite E, app_length in NP. lia.
  - destruct (Nat.leb_spec (length (c_model c)) (Datatypes.S (length L))) as [_|C]; [lia|].
    assert (X : (i <= ss ax (match nth_error (c_model c) (Datatypes.S (length L)) with Some p => w_position w p | None => None end))%nat); [|lia].
    destruct (nth_error (c_model c) (Datatypes.S (length L))) as [p|] eqn:NP.
    + apply (ss_lower _ border _ x1 INC N1); [|lia]. apply HR. rewrite E, nth_error_app2 in NP by lia. eapply nth_error_In; exact NP.
    + exfalso. apply nth_error_None in NP. lia.
Qed.

(** At the left end of the data (cluster 0, border x[0]) the range starts with the data. *)
Theorem C202_range_at_the_left_end :
  forall (c : cluster P B) x0, pos_sorted (w_position w) (c_model c) -> DataClustersSpec.increasing (adat ax) ->
    nth_error (adat ax) 0 = Some x0 -> c_start c = 0%nat -> (0 < c_stop c)%nat ->
    h_lo (neighbourhood T ax c x0) = 0%nat /\ (0 < h_hi (neighbourhood T ax c x0))%nat.
Proof.
  intros c x0 S INC N0 HS HE. destruct (split_peaks _ x0 S) as (L & R & E & EK & HL & HR).
  assert (HI : (0 < length (adat ax))%nat) by (apply nth_error_Some; congruence).
  unfold neighbourhood. cbn [h_lo h_hi]. rewrite EK. split.
  - destruct (Nat.leb_spec (length L) 1) as [_|C]; [lia|].
    assert (X : (ss ax (match nth_error (c_model c) (length L - 2) with Some p => w_position w p | None => None end) <= 0)%nat); [|lia].
    destruct (nth_error (c_model c) (length L - 2)) as [p|] eqn:NP.
    + apply (ss_upper _ x0 _ x0 INC N0); [|lia]. apply HL. rewrite E, nth_error_app1 in NP by lia. eapply nth_error_In; exact NP.
    + exfalso. apply nth_error_None in NP. rewrite E, app_length in NP. lia.
  - destruct (Nat.leb_spec (length (c_model c)) (Datatypes.S (length L))) as [_|C]; [lia|]. lia.
Qed.

(** ** C202 fails at the right end *)
Lemma near_all_right :
  forall (c : cluster P B) border first rest, pos_sorted (w_position w) (c_model c) ->
    c_model c = first :: rest ->
    (forall p, In p (c_model c) -> exists x, w_position w p = Some x /\ border <= x) ->
    near_pk (neighbourhood T ax c border) = [first] /\ other_pk (neighbourhood T ax c border) = rest.
Proof.
  intros c border first rest S E H. destruct (C202_near_and_other_peaks c border S) as (L & R & EM & HL & HR & E1 & E2).
  assert (L = []) as ->.
  { destruct L as [|p L]; [reflexivity|]. exfalso. destruct (H p) as (x & EX & Hx); [rewrite EM; now left|].
    specialize (HL p (or_introl eq_refl)). unfold left_of_border in HL. rewrite EX in HL. lia. }
  cbn [app] in EM. subst R. rewrite E in E1, E2. rewrite E1, E2. cbn. auto.
Qed.

(** The boundary step on the cluster number k, wherever that cluster lies: with all fitted
    peaks at or right of x[k] it re-examines the first peak and puts the others -- among
    them the one next to the right end -- back unexamined. *)
Theorem C202_right_end_refuted :
  forall (bl : B) em pf rec depth ay ae mcs k mcs' c c0 full border first rest lst,
    nth_error mcs k = Some c -> copy_cluster w c = Ok c0 -> fit_true T c0 = Ok full ->
    pos_sorted (w_position w) (c_model full) -> nth_error (adat ax) k = Some border ->
    c_model full = first :: rest ++ [lst] ->
    (forall p, In p (c_model full) -> exists x, w_position w p = Some x /\ border <= x) ->
    boundary T bl em pf rec depth ax ay ae mcs k = Some (Ok mcs') ->
    exists h a a' full',
      near_pk h = [first] /\ adj_cluster T bl em pf ax ay ae h = Ok a /\ c_model a = [first] /\
      recurse_on T em pf rec depth ax ay ae h [first] true a = Some (Ok a') /\
      rebuild T full (rest ++ [lst]) (c_model a') = Ok full' /\ mcs' = upd mcs k full'.
Proof.
  intros bl em pf rec depth ay ae mcs k mcs' c c0 full border first rest lst NC EC EF S NB EM H E.
  unfold boundary in E. rewrite NC, EC in E. cbn [lift obind] in E. rewrite EF in E. cbn [lift obind] in E.
  assert (HK : (k < length (adat ax))%nat) by (apply nth_error_Some; congruence).
  destruct (pyget_in (adat ax) k HK) as (bx & PG & NB2). rewrite NB in NB2. injection NB2 as <-. rewrite PG in E. cbn [lift obind] in E.
  destruct (pyget (adat ay) (Z.of_nat k)) as [by_|]; cbn [lift obind] in E; [|discriminate].
  destruct (near_all_right full border first (rest ++ [lst]) S EM H) as [N1 N2].
  set (h := neighbourhood T ax full border) in *. destruct (adj_cluster T bl em pf ax ay ae h) as [a|] eqn:EA; cbn [lift obind] in E; [|discriminate].
  rewrite N1 in E. cbn [length Nat.eqb negb] in E. apply obind_ok in E as (a' & ER & E). destruct (rebuild T full (other_pk h) (c_model a')) as [full'|] eqn:E2; [|discriminate E].
  exists h, a, a', full'. split; [exact N1|]. split; [exact EA|]. split.
  { unfold adj_cluster in EA. apply (make_holds T pf) in EA as (M1 & _). now rewrite M1. }
  split; [exact ER|]. rewrite N2 in E2. split; [exact E2|]. now injection E as <-.
Qed.
End Neighbourhood.
Print Assumptions C202_near_and_other_peaks.
Print Assumptions C202_range_at_a_join.
Print Assumptions C202_range_at_the_left_end.
Print Assumptions C202_right_end_refuted.

(** The last of two clusters: it holds the points 5 to 9 and the peaks at 5, 7 and 9; the
    peak at 5 is the one re-examined. *)
Definition ur : cluster xpeak Z := mkC [xp 5 3 true; xp 7 3 true; xp 9 3 true] (Some 0) (mkArr 0 vx) (mkArr 1 vy) (mkArr 2 ve) 5 10 false 0 0 [7%nat].
Definition ul : cluster xpeak Z := mkC [] (Some 0) (mkArr 0 vx) (mkArr 1 vy) (mkArr 2 ve) 0 3 false 0 0 [7%nat].
Example C202_refuted_nonvacuous :
  let near c := near_pk (neighbourhood utools (mkArr 0 vx) c 1) in
  near ur = [xp 5 3 true] /\
  exists c0 full, copy_cluster uworld ur = Ok c0 /\ fit_true utools c0 = Ok full /\ c_model full = [xp 5 3 true; xp 7 3 true; xp 9 3 true] /\
    exists m, boundary utools 0 0 [7%nat] (fun _ _ _ => None) 1 (mkArr 0 vx) (mkArr 1 vy) (mkArr 2 ve) [ul; ur] 1 = Some (Ok m).
Proof.
  split; [vm_compute; reflexivity|]. eexists. eexists. split; [vm_compute; reflexivity|]. split; [vm_compute; reflexivity|].
  split; [vm_compute; reflexivity|]. eexists. vm_compute. reflexivity.
Qed.

(** A cluster over the whole of ten points with three peaks: at the left end the first
    peak is near, at the right end of the same cluster again the first peak. *)
Example C202_nonvacuous :
  let c := mkC [xp 2 5 true; xp 5 5 true; xp 8 5 true] (Some 0) (mkArr 0 vx) (mkArr 1 vy) (mkArr 2 ve) 0 10 false 0 0 [7%nat] in
  near_pk (neighbourhood vtools (mkArr 0 vx) c 0) = [xp 2 5 true] /\
  near_pk (neighbourhood vtools (mkArr 0 vx) c 4) = [xp 2 5 true; xp 5 5 true] /\
  near_pk (neighbourhood vtools (mkArr 0 vx) c 9) = [xp 8 5 true] /\
  (h_lo (neighbourhood vtools (mkArr 0 vx) c 6), h_hi (neighbourhood vtools (mkArr 0 vx) c 6)) = (1%nat, 10%nat).
Proof. vm_compute. auto. Qed.

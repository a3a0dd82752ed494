(** Properties C49, C50 and C69: the extraction loop of extract_single. *)
From Coq Require Import Permutation Sorted.
From Verif Require Import Prelude ModelCluster ModelClusterProofs ModelClusterProps Prune PruneProofs PruneProps AugmentProps Extract ExtractProofs.
From Verif Require DataClusters DataClustersSpec DataClustersAdj DataClustersProofs DataClustersMore DataClustersProps.
Open Scope Z_scope.

Section Props.
Context {P B Q L0 : Type}.
Variable T : xtools P B Q.
Notation w := (t_w T).
Notation cluster := (cluster P B).
Variables (bl : B) (cres : Z) (em : nat) (pf : list nat).
Variable lab : P -> L0.

(** What the theorems assume of the arithmetic, of numpy's sorting and of the baseline
    (its comparison is reflexive; values have the length of the grid). *)
Definition sane : Prop :=
  DataClustersSpec.faithful (w_rnd w) /\ argsort_ok (w_argsort w) /\ DataClustersSpec.argsort_ok (t_argsort T) /\
  w_bl_eqb w bl bl = true /\ (forall b r, length (w_blvalue w b r) = length r) /\ (forall p r, length (w_pvalue w p r) = length r).

(** The arrays of one call. *)
Definition arrays_ok (ax ay ae : array) : Prop :=
  length (adat ay) = length (adat ax) /\ length (adat ae) = length (adat ax) /\
  DataClustersSpec.increasing (adat ax) /\ adat ax <> [].

Section OneCall.
Variable rec : list Z -> list Z -> list Z -> option (result cluster).
Variable depth : nat.
Variables ax ay ae : array.
Variable yd : list Z.

(** States at the head of the loop: after the set-up, and after every completed iteration. *)
Inductive at_loop_head (mp : Z) : DataClusters.dc -> list cluster -> Prop :=
| at_start : forall s mcs, start T bl cres em pf ax ay ae yd = Ok (s, mcs, mp) -> at_loop_head mp s mcs
| at_again : forall s mcs s1 s2 mcs2, at_loop_head mp s mcs -> DataClusters.next (w_rnd w) s = (s1, Ok tt) ->
    iteration T bl em pf rec depth ax ay ae mp s1 mcs = Some (Ok (s2, mcs2)) -> at_loop_head mp s2 mcs2.

(** [c] models exactly the points lo..hi of the data (inclusive). *)
Definition models_range (p : Z * Z) (c : cluster) : Prop :=
  Z.of_nat (c_start c) = fst p /\ Z.of_nat (c_stop c) = snd p + 1 /\
  c_r c = ax /\ c_y c = ay /\ c_e c = ae /\ c_em c = em /\ c_base c = Some bl.

Hypothesis SANE : sane.
Hypothesis ARR : arrays_ok ax ay ae.

Lemma head_inv mp s mcs : at_loop_head mp s mcs -> inv T bl cres em ax ay ae yd s mcs.
Proof.
  destruct SANE as (H1 & H2 & H3 & H4 & H5 & H6), ARR as (A1 & A2 & A3 & A4).
  induction 1 as [s mcs E|s mcs s1 s2 mcs2 _ IH N E].
  - eapply start_inv; eauto.
  - unfold iteration in E. apply obind_ok in E as ([m1 adj] & EH & E). apply lift_ok in EH.
    destruct (head_ok T bl cres em pf rec ax ay ae H1 H3 H5 A1 A2 A3 A4 _ _ _ _ IH N) as (m1' & l & m & EH' & F & Hm & HT & FA).
    rewrite EH in EH'. injection EH' as <- ->.
    eapply (body_inv T bl cres em pf rec depth ax ay ae H1 H2 H3 H4 H5 A1 A2 A3 A4 yd); [|exact F|exact Hm|exact HT|exact FA|exact E].
    replace s1 with (fst (DataClusters.next (w_rnd w) s)) by (rewrite N; reflexivity). apply DataClustersSpec.reach_next. apply IH.
Qed.

(** ** C49 *)
(** At the head of the loop the models and the data clusters correspond one to one, in
    order and with equal ranges, over the same arrays; the clusters are disjoint, ordered
    and no two of them touch. *)
Theorem C49_models_match_clusters :
  forall mp s mcs, at_loop_head mp s mcs ->
    Forall2 models_range (dcl s) mcs /\ well_formed (Z.of_nat (length (adat ax))) (dcl s) /\
    (forall i, ~ touching (dcl s) i).
Proof.
  intros mp s mcs H. apply head_inv in H. destruct H as [R M NT]. split; [exact M|]. split; [|exact NT].
  destruct SANE as (H1 & H2 & H3 & H4 & H5 & H6), ARR as (A1 & A2 & A3 & A4).
  apply (DataClustersProps.C01_clusters_well_formed _ _ _ _ _ _ H1 H3 A3 A4 R).
Qed.

(** After the iterator has clustered one more point: updating the models succeeds, they
    match the clusters again, both assertions of the code hold, and the touching clusters
    are one run of two or three consecutive ones (or there are none). *)
Theorem C49_assertions_never_fail :
  forall mp s mcs s1, at_loop_head mp s mcs -> DataClusters.next (w_rnd w) s = (s1, Ok tt) ->
    exists mcs1 l m, head T bl em pf ax ay ae s1 mcs = Ok (mcs1, seq l m) /\
      Forall2 models_range (dcl s1) mcs1 /\ length (dcl s1) = length mcs1 /\
      (m = 0 \/ m = 2 \/ m = 3)%nat /\
      (forall i, touching (dcl s1) i <-> (l <= i /\ S i < l + m)%nat).
Proof.
  intros mp s mcs s1 H N. apply head_inv in H. destruct SANE as (H1 & H2 & H3 & H4 & H5 & H6), ARR as (A1 & A2 & A3 & A4).
  destruct (head_ok T bl cres em pf rec ax ay ae H1 H3 H5 A1 A2 A3 A4 _ _ _ _ H N) as (m1 & l & m & EH & F & Hm & HT & FA).
  exists m1, l, m. split; [exact EH|]. split; [exact F|]. split; [exact (Forall2_len _ _ _ F)|]. auto.
Qed.

(** The loop is left only when every point is clustered; then exactly one model is left
    and it covers all the data. *)
Theorem C49_one_model_covers_everything :
  forall mp s mcs s1 e, at_loop_head mp s mcs -> DataClusters.next (w_rnd w) s = (s1, Err e) ->
    e = StopIteration /\ exists c, mcs = [c] /\ models_range (0, Z.of_nat (length (adat ax)) - 1) c.
Proof.
  intros mp s mcs s1 e H N. apply head_inv in H. destruct SANE as (H1 & H2 & H3 & H4 & H5 & H6), ARR as (A1 & A2 & A3 & A4).
  exact (stop_inv T bl cres em ax ay ae H1 H3 A1 A2 A3 A4 _ _ _ _ _ H N).
Qed.

(** Each iteration clusters at least one point, so the loop runs fewer times than there
    are points: the bound in the model of the loop is never what ends it. *)
Lemma next_cur s s1 : DataClustersSpec.reach (w_rnd w) (t_argsort T) (adat ax) yd cres s -> DataClusters.next (w_rnd w) s = (s1, Ok tt) ->
  (DataClusters.cur s1 < DataClusters.cur s)%nat.
Proof.
  intros R N. destruct SANE as (H1 & H2 & H3 & H4 & H5 & H6), ARR as (A1 & A2 & A3 & A4).
  pose proof (DataClustersMore.A_inv _ _ _ _ _ _ H1 H3 A3 A4 R) as I.
  assert (ND : DataClusters.st s <> DataClusters.DONE). { intros C. unfold DataClusters.next in N. rewrite C in N. discriminate. }
  destruct (DataClustersProofs.next_cases (w_rnd w) H1 (t_argsort T) H3 (adat ax) yd cres A3 s I ND) as [(s' & E & _)|(s' & c' & k & E & _ & Hc & Ec & _)]; [congruence|].
  rewrite N in E. injection E as <-. lia.
Qed.
Lemma combine_cur s g s' r : DataClusters.combine_clusters s g = (s', r) -> DataClusters.cur s' = DataClusters.cur s.
Proof.
  unfold DataClusters.combine_clusters. destruct (DataClusters.np_array2 g); [|intros E; now injection E as <- _].
  destruct (DataClusters.has_dup _); [intros E; now injection E as <- _|]. destruct (DataClusters.combine_loop _ _) as [cs [u|e]].
  - destruct (Nat.eqb _ 0); intros E; injection E as <- _; reflexivity.
  - intros E; injection E as <- _; reflexivity.
Qed.
Lemma body_cur mp s m adj s2 m2 : body T bl em pf rec depth ax ay ae mp s m adj = Some (Ok (s2, m2)) -> DataClusters.cur s2 = DataClusters.cur s.
Proof.
  unfold body. destruct (DataClusters.lastc s); [|discriminate]. destruct (DataClusters.lastp s); [|discriminate]. intros E.
  apply obind_ok in E as (? & _ & E). apply obind_ok in E as (? & _ & E). apply obind_ok in E as (? & _ & E). apply obind_ok in E as (? & _ & E).
  destruct adj as [|a adj]; [now injection E as <- _|]. destruct (DataClusters.combine_clusters s [a :: adj]) as [s' [u|e]] eqn:C; [|discriminate].
  injection E as <- _. exact (combine_cur _ _ _ _ C).
Qed.

(** The nested calls that may happen do not run out of fuel. *)
Definition rec_total : Prop :=
  (depth < 3)%nat -> forall rx ry re, DataClustersSpec.increasing rx -> length ry = length rx -> length re = length rx -> rec rx ry re <> None.
Hypothesis ES : engine_shape w lab.
Hypothesis RT : rec_total.

Lemma obind_none {A C} (m : option (result A)) (f : A -> option (result C)) :
  m <> None -> (forall a, m = Some (Ok a) -> f a <> None) -> obind m f <> None.
Proof. destruct m as [[a|e]|]; cbn [obind]; [intros _ H; now apply H|discriminate|contradiction]. Qed.
Lemma lift_none {A} (r : result A) : lift r <> None. Proof. discriminate. Qed.

Lemma increasing_slice l a b : DataClustersSpec.increasing l -> DataClustersSpec.increasing (slice l a b).
Proof.
  intros H i j u v Hij Hi Hj. rewrite nth_error_slice in Hi, Hj. destruct (i <? b - a)%nat; [|discriminate]. destruct (j <? b - a)%nat; [|discriminate].
  eapply (H (a + i)%nat (a + j)%nat); [lia|exact Hi|exact Hj].
Qed.
Lemma vsub_len (a b : list Z) : length b = length a -> length (vsub w a b) = length a.
Proof. intros H. unfold vsub. rewrite map_length, combine_length. lia. Qed.
Lemma vsum_len r ps : length (vsum w r ps) = length r.
Proof.
  destruct SANE as (_ & _ & _ & _ & _ & H6). unfold vsum. assert (G : forall acc, length acc = length r -> length (fold_left (fun acc p => vadd w acc (w_pvalue w p r)) ps acc) = length r).
  { induction ps as [|p ps IH]; intros acc E; [exact E|]. cbn [fold_left]. apply IH. unfold vadd. rewrite map_length, combine_length, H6. lia. }
  apply G. apply map_length.
Qed.
Lemma adj_lens h : length (adj_y T ax ay h) = length (adj_x (P:=P) ax h) /\ length (adj_e ae h) = length (adj_x ax h).
Proof.
  destruct ARR as (A1 & A2 & _). assert (E1 : length (slice (adat ay) (h_lo h) (h_hi h)) = length (adj_x ax h)) by (unfold adj_x; rewrite !slice_length; lia).
  split; [|unfold adj_e, adj_x; rewrite !slice_length; lia].
  unfold adj_y. rewrite vsub_len; [exact E1|]. now rewrite vsum_len.
Qed.

Lemma recurse_on_total h m en c : recurse_on T em pf rec depth ax ay ae h m en c <> None.
Proof.
  unfold recurse_on. apply obind_none; [apply lift_none|]. intros mn _. apply obind_none; [apply lift_none|]. intros chk _.
  destruct (en && _ && _) eqn:C; [|discriminate]. apply andb_prop in C as [_ C]. apply Nat.ltb_lt in C.
  destruct (adj_lens h) as [L1 L2]. apply obind_none.
  - apply RT; [exact C|unfold adj_x; apply increasing_slice; apply ARR|rewrite vsub_len; [exact L1|rewrite vsum_len; now rewrite L1]|exact L2].
  - intros r _. destruct (C66_terminates_with_own_and_source_peaks w (t_qargmax T) lab (proj1 (proj2 SANE)) ES c r (S (length (c_model r))) ltac:(lia)) as (c' & out & E & _).
    rewrite E. destruct out; discriminate.
Qed.
Lemma boundary_total mcs k : boundary T bl em pf rec depth ax ay ae mcs k <> None.
Proof.
  unfold boundary. destruct (nth_error mcs k); [|discriminate].
  do 5 (apply obind_none; [apply lift_none|intros ? _]). apply obind_none; [apply recurse_on_total|intros ? _].
  apply obind_none; [apply lift_none|intros ? _]. discriminate.
Qed.
Lemma combine_all_total cs is : forall mcs, combine_all T bl em pf rec depth ax ay ae cs mcs is <> None.
Proof.
  induction is as [|i is IH]; intros mcs; cbn [combine_all]; [discriminate|]. apply obind_none; [|intros; apply IH].
  unfold combine_pair. destruct (nth_error cs (i - 1)); [|discriminate]. destruct (nth_error cs i); [|discriminate].
  destruct (nth_error mcs (i - 1)); [|discriminate]. destruct (nth_error mcs i); [|discriminate].
  do 6 (apply obind_none; [apply lift_none|intros ? _]).
  apply obind_none; [unfold first_variant; destruct (_ =? 2)%nat; [|discriminate]; destruct (reduce_to _ _ _ _) as [? [?|?]]; [apply recurse_on_total|discriminate]|intros ? _].
  apply obind_none; [unfold second_variant; apply obind_none; [apply lift_none|intros ? _]; apply recurse_on_total|intros ? _].
  do 2 (apply obind_none; [apply lift_none|intros ? _]). discriminate.
Qed.
Lemma iteration_total mp s mcs : iteration T bl em pf rec depth ax ay ae mp s mcs <> None.
Proof.
  unfold iteration. apply obind_none; [apply lift_none|]. intros [m1 adj] _. unfold body.
  destruct (DataClusters.lastc s); [|discriminate]. destruct (DataClusters.lastp s); [|discriminate].
  do 2 (apply obind_none; [apply lift_none|intros ? _]). apply obind_none; [destruct (_ || _); [apply boundary_total|discriminate]|intros ? _].
  apply obind_none; [apply combine_all_total|intros ? _]. destruct adj; [discriminate|]. destruct (DataClusters.combine_clusters _ _) as [? [?|?]]; discriminate.
Qed.

Lemma loop_total mp : forall fuel s mcs, at_loop_head mp s mcs -> (DataClusters.cur s < fuel)%nat ->
  loop T bl em pf rec depth ax ay ae fuel mp s mcs <> None.
Proof.
  induction fuel as [|fuel IH]; intros s mcs H C; [lia|]. cbn [loop].
  destruct (DataClusters.next (w_rnd w) s) as [s1 [u|e]] eqn:N; [|destruct e; discriminate]. destruct u.
  pose proof (head_inv _ _ _ H) as I.
  apply obind_none; [apply iteration_total|]. intros [s2 m2] E. apply IH; [eapply at_again; eauto|].
  unfold iteration in E. apply obind_ok in E as ([m1 adj] & _ & E). rewrite (body_cur _ _ _ _ _ _ E).
  pose proof (next_cur _ _ (i_reach _ _ _ _ _ _ _ _ _ _ I) N). lia.
Qed.

Lemma loop_result mp : forall fuel s mcs u, at_loop_head mp s mcs -> loop T bl em pf rec depth ax ay ae fuel mp s mcs = Some (Ok u) ->
  exists c, snd u = [c] /\ models_range (0, Z.of_nat (length (adat ax)) - 1) c.
Proof.
  induction fuel as [|fuel IH]; intros s mcs u H E; [discriminate|]. cbn [loop] in E.
  destruct (DataClusters.next (w_rnd w) s) as [s1 [tt_|e]] eqn:N.
  - destruct tt_. apply obind_ok in E as ([s2 m2] & EI & E). eapply IH; [|exact E]. eapply at_again; eauto.
  - destruct (C49_one_model_covers_everything _ _ _ _ _ H N) as (-> & c & -> & M). injection E as <-. exists c. split; [reflexivity|exact M].
Qed.

Lemma start_cur s mcs mp : start T bl cres em pf ax ay ae yd = Ok (s, mcs, mp) -> (DataClusters.cur s < S (length (adat ax)))%nat.
Proof.
  unfold start. destruct (DataClusters.construct (t_argsort T) (adat ax) yd cres) as [s0|] eqn:CS; cbn [bind]; [|discriminate].
  destruct (DataClusters.cut s0 0); cbn [bind]; [|discriminate]. destruct (fresh T bl em pf ax ay ae a); cbn [bind]; [|discriminate].
  destruct (minpoints_of T em pf); cbn [bind]; [|discriminate]. intros E. injection E as <- _ _.
  unfold DataClusters.construct in CS. destruct (Nat.eqb_spec (length (adat ax)) (length yd)) as [EL|]; cbn [negb] in CS; [|discriminate].
  destruct (cres <? 0); [discriminate|]. destruct (Nat.eqb_spec (length (adat ax)) 0); [injection CS as <-; cbn; lia|].
  destruct (pyget (t_argsort T yd) (-1)); cbn [bind] in CS; [|discriminate]. injection CS as <-. cbn [DataClusters.cur].
  destruct SANE as (_ & _ & H3 & _). pose proof (Permutation_length (proj1 (H3 yd))) as PL. rewrite map_length, seq_length in PL. lia.
Qed.

Lemma finish_total mcs ip : finish T depth mcs ip <> None.
Proof.
  unfold finish. destruct mcs as [|c mcs]; [discriminate|]. apply obind_none; [apply lift_none|]. intros c1 _.
  destruct (C42_terminates_removing_only_removable w (t_qk T) (t_qargmax T) lab (proj1 (proj2 SANE)) ES c1 (S (length (c_model c1))) ltac:(lia)) as (m & out & gone & E & _).
  rewrite E. destruct out; [|discriminate]. destruct (depth =? 1)%nat; [|discriminate]. destruct (fr_out _); discriminate.
Qed.

Lemma run_total ip : run T bl cres em pf rec depth ax ay ae yd ip <> None.
Proof.
  unfold run. apply obind_none; [apply lift_none|]. intros [[s mcs] mp] E. apply lift_ok in E. apply obind_none.
  - apply loop_total; [now constructor|exact (start_cur _ _ _ E)].
  - intros u _. apply finish_total.
Qed.

(** What the extracted cluster is, after the initial peaks are put back. *)
Definition whole (c : cluster) : Prop :=
  c_start c = 0%nat /\ c_stop c = length (adat ax) /\ c_r c = ax /\ c_e c = ae /\ c_em c = em.

Lemma add_frame c ip c1 : addexternalpeaks T c ip = Ok c1 ->
  c_start c1 = c_start c /\ c_stop c1 = c_stop c /\ c_r c1 = c_r c /\ c_e c1 = c_e c /\ c_em c1 = c_em c /\ c_base c1 = c_base c /\
  adat (c_y c1) = vadd w (adat (c_y c)) (vsum w (adat (c_r c)) ip) /\ Permutation (c_model c1) (ip ++ c_model c).
Proof.
  unfold addexternalpeaks, replacepeaks, slice_bounds. cbn -[Z.of_nat]. unfold clamp. cbn -[Z.of_nat].
  assert (Z.to_nat (Z.min 0 (Z.of_nat (length (c_model c)))) = 0%nat) as -> by lia. cbn [Nat.max]. unfold slice. cbn [Nat.sub firstn existsb].
  intros E. injection E as <-. cbn. repeat (split; [reflexivity|]). destruct SANE as (_ & AS & _). apply (sort_perm w AS).
Qed.

Lemma finish_whole c ip c' : models_range (0, Z.of_nat (length (adat ax)) - 1) c -> finish T depth [c] ip = Some (Ok c') ->
  whole c' /\ adat (c_y c') = vadd w (adat ay) (vsum w (adat ax) ip).
Proof.
  intros (M1 & M2 & M3 & M4 & M5 & M6 & M7) E. cbn [fst snd] in *. unfold finish in E.
  assert (LX : (0 < length (adat ax))%nat) by (destruct ARR as (_ & _ & _ & A4); destruct (adat ax); [contradiction|cbn; lia]).
  apply obind_ok in E as (c1 & E1 & E). apply lift_ok in E1. destruct (add_frame _ _ _ E1) as (F1 & F2 & F3 & F4 & F5 & F6 & F7 & F8).
  destruct (prune w _ _ _ c1) as [[m [u|e]]|]; [|discriminate|discriminate].
  assert (W1 : whole (set_model c1 m) /\ adat (c_y (set_model c1 m)) = vadd w (adat ay) (vsum w (adat ax) ip)).
  { unfold whole. cbn [set_model c_start c_stop c_r c_e c_em c_y]. rewrite F1, F2, F3, F4, F5, F7, M3, M4, M5, M6. repeat split; lia. }
  destruct (depth =? 1)%nat; [|injection E as <-; exact W1].
  destruct (fr_out _); [|discriminate]. injection E as <-. destruct SANE as (_ & AS & _).
  destruct (fit_frame w AS (set_model c1 m) false 0 true true) as (G1 & G2 & G3 & G4 & G5 & _ & G7 & _). unfold whole. now rewrite G1, G2, G3, G4, G5, G7.
Qed.

Lemma run_whole ip c : run T bl cres em pf rec depth ax ay ae yd ip = Some (Ok c) ->
  whole c /\ adat (c_y c) = vadd w (adat ay) (vsum w (adat ax) ip).
Proof.
  intros E. unfold run in E. apply obind_ok in E as ([[s mcs] mp] & E0 & E). apply lift_ok in E0. apply obind_ok in E as (u & EL & E).
  destruct (loop_result _ _ _ _ _ (at_start _ _ _ E0) EL) as (c0 & E1 & M). rewrite E1 in E. exact (finish_whole _ _ _ M E).
Qed.

(** Protected peaks given by the user. *)
Lemma fit_kept_fb c : c_model c <> [] -> kept w lab (engine_no_nan w) (c_model c) (c_model (fr_c (fit w c false 0 true true))).
Proof.
  intros NM. destruct SANE as (_ & AS & _). unfold fit. destruct (c_never c); [apply kept_refl|].
  destruct (c_model c) as [|p m] eqn:M; [contradiction|]. rewrite <- M. clear M p m NM. cbn [andb]. set (c2 := set_last c (c_size c)).
  change (c_model c2) with (c_model c). set (fb := match c_base c2 with None => _ | Some _ => _ end).
  destruct (w_engine w (c_model c) _ c2 0) as [[ps ob] out] eqn:EE.
  pose proof (sig_engine w lab _ _ (ES _ _ _ _ _ _ _ EE)) as SG.
  assert (K0 : kept w lab (engine_no_nan w) (c_model c) ps) by (apply kept_perm; now rewrite SG).
  assert (KR : kept w lab (engine_no_nan w) (c_model c) (c_model c)) by apply kept_refl.
  destruct out as [[]|e]; [|destruct e; cbn [fr_c set_base set_model c_model]; assumption].
  assert (KS : kept w lab (engine_no_nan w) (c_model c) (sort_peaks w ps)).
  { eapply kept_trans; [exact K0|]. apply kept_perm. apply Permutation_map. symmetry. apply (sort_perm w AS). }
  destruct (cleanfit w (sort_peaks w ps) (r_cluster c2) (e_cluster c2)) as [[ps2 n]|e] eqn:CF; [|cbn [fr_c set_base set_model c_model]; assumption].
  assert (K2 : kept w lab (engine_no_nan w) (c_model c) ps2).
  { destruct (cleanfit_kept w lab _ _ _ _ _ CF) as (rem & Pm & H). eapply kept_trans; [exact KS|]. exists rem. split; [exact Pm|]. intros NN. apply H.
    intros p Hp. apply (NN _ _ _ _ _ _ EE). eapply Permutation_in; [apply (sort_perm w AS)|exact Hp]. }
  destruct (w_qlt w _ _); cbn [fr_c set_base set_model c_model]; [exact KR|exact K2].
Qed.

Lemma finish_protected c ip c' : engine_no_nan w -> finish T depth [c] ip = Some (Ok c') ->
  forall p, In p ip -> w_removable w p = false -> exists q, In q (c_model c') /\ lab q = lab p /\ w_removable w q = false.
Proof.
  intros NN E p Hp Rp. unfold finish in E. apply obind_ok in E as (c1 & E1 & E). apply lift_ok in E1.
  destruct (add_frame _ _ _ E1) as (_ & _ & _ & _ & _ & _ & _ & F8). destruct SANE as (_ & AS & _).
  assert (P1 : In (lab p, false) (sig w lab (c_model c1))).
  { unfold sig. apply in_map_iff. exists p. split; [now rewrite Rp|]. eapply Permutation_in; [apply Permutation_sym; exact F8|]. apply in_or_app. now left. }
  destruct (prune w _ _ _ c1) as [[m [u|e]]|] eqn:PR; [|discriminate|discriminate].
  destruct (C42_terminates_removing_only_removable w (t_qk T) (t_qargmax T) lab AS ES c1 (S (length (c_model c1))) ltac:(lia)) as (m' & out & gone & E2 & PM & GR & _).
  rewrite PR in E2. injection E2 as <- <-.
  assert (P2 : In (lab p, false) (sig w lab m)).
  { eapply Permutation_in in P1; [|exact PM]. apply in_app_or in P1 as [P1|P1]; [exact P1|]. apply (GR NN) in P1. discriminate. }
  assert (FIN : forall mm, In (lab p, false) (sig w lab mm) -> exists q, In q mm /\ lab q = lab p /\ w_removable w q = false).
  { intros mm H. unfold sig in H. apply in_map_iff in H as (q & E3 & Hq). injection E3 as E3 E4. eauto. }
  destruct (depth =? 1)%nat; [|injection E as <-; now apply FIN].
  destruct (fr_out _); [|discriminate]. injection E as <-. apply FIN.
  destruct (fit_kept_fb (set_model c1 m)) as (rem & PK & HR). { cbn [set_model c_model]. intros ->. destruct P2. }
  cbn [set_model c_model] in PK. eapply Permutation_in in P2; [|exact PK]. apply in_app_or in P2 as [P2|P2]; [exact P2|]. apply (HR NN) in P2. discriminate.
Qed.
End OneCall.

(** ** C50 *)
Lemma edy_len y e : length e = length y -> length (default_edy T y e) = length y.
Proof. intros H. unfold default_edy. destruct (forallb _ e); [exact H|]. destruct y; [reflexivity|]. apply repeat_length. Qed.

(** Every nested call uses up one unit of fuel.  Three levels always suffice for a call at
    depth 1 (and 4 - d for one at depth d): no nested call is ever made at a depth above 3,
    and every loop ends, whatever the data and whatever the fits return. *)
Theorem C50_at_most_three_levels :
  sane -> engine_shape w lab ->
  forall fuel depth x y e ip, (0 < fuel)%nat -> (4 <= fuel + depth)%nat ->
    DataClustersSpec.increasing x -> x <> [] -> length y = length x -> length e = length x ->
    extract T bl cres em pf fuel depth x y e ip <> None.
Proof.
  intros SN ES. induction fuel as [|fuel IH]; intros depth x y e ip HF HD HI HN LY LE; [lia|]. cbn [extract].
  assert (AR : arrays_ok (mkArr 0 x) (mkArr 1 (vsub w y (vsum w x ip))) (mkArr 2 e)).
  { unfold arrays_ok. cbn [adat]. rewrite vsub_len; [auto|]. rewrite vsum_len by exact SN. congruence. }
  apply run_total; [exact SN|exact AR|exact ES|]. intros D3 rx ry re H1 H2 H3. destruct rx as [|r0 rx]; [discriminate|].
  apply IH; [lia|lia|exact H1|discriminate|exact H2|]. rewrite edy_len; congruence.
Qed.

(** The result of a successful extraction spans all the data given, with the uncertainties
    and the error method given; in exact arithmetic its data are the data given. *)
Theorem C49_extracted_spans_the_data :
  sane ->
  forall fuel depth x y e ip c,
    DataClustersSpec.increasing x -> x <> [] -> length y = length x -> length e = length x ->
    extract T bl cres em pf fuel depth x y e ip = Some (Ok c) ->
    c_start c = 0%nat /\ c_stop c = length x /\ adat (c_r c) = x /\ adat (c_e c) = e /\ c_em c = em /\
    length (adat (c_y c)) = length x /\
    ((forall z, w_rnd w z = z) -> adat (c_y c) = y).
Proof.
  intros SN fuel depth x y e ip c HI HN LY LE E. destruct fuel as [|fuel]; [discriminate|]. cbn [extract] in E.
  assert (LS : length (vsum w x ip) = length y) by (rewrite vsum_len by exact SN; congruence).
  assert (AR : arrays_ok (mkArr 0 x) (mkArr 1 (vsub w y (vsum w x ip))) (mkArr 2 e)).
  { unfold arrays_ok. cbn [adat]. rewrite vsub_len; auto. }
  destruct (run_whole _ _ _ _ _ _ SN AR _ _ E) as ((W1 & W2 & W3 & W4 & W5) & W6). cbn [adat] in *.
  rewrite W3, W4. cbn [adat]. split; [exact W1|]. split; [exact W2|]. split; [reflexivity|]. split; [reflexivity|]. split; [exact W5|]. rewrite W6. split.
  - unfold vadd. rewrite map_length, combine_length, vsub_len by exact LS. lia.
  - intros EX. unfold vadd, vsub. revert LS. generalize (vsum w x ip). intros v LV. clear - LV EX. revert v LV.
    induction y as [|a y IH]; intros [|b v] LV; try discriminate; [reflexivity|]. cbn. rewrite !EX. f_equal; [lia|]. apply IH. now injection LV.
Qed.

(** ** C69 *)
(** Initial peaks that must not be removed are in the extracted model. *)
Theorem C69_protected_initial_peaks_survive :
  sane -> engine_shape w lab -> engine_no_nan w ->
  forall fuel depth x y e ip c,
    DataClustersSpec.increasing x -> x <> [] -> length y = length x -> length e = length x ->
    extract T bl cres em pf fuel depth x y e ip = Some (Ok c) ->
    forall p, In p ip -> w_removable w p = false ->
      exists q, In q (c_model c) /\ lab q = lab p /\ w_removable w q = false.
Proof.
  intros SN ES NN fuel depth x y e ip c HI HN LY LE E. destruct fuel as [|fuel]; [discriminate|]. cbn [extract] in E.
  assert (LS : length (vsum w x ip) = length y) by (rewrite vsum_len by exact SN; congruence).
  assert (AR : arrays_ok (mkArr 0 x) (mkArr 1 (vsub w y (vsum w x ip))) (mkArr 2 e)).
  { unfold arrays_ok. cbn [adat]. rewrite vsub_len; auto. }
  unfold run in E. apply obind_ok in E as ([[s mcs] mp] & E0 & E). apply lift_ok in E0. apply obind_ok in E as (u & EL & E).
  destruct (loop_result _ _ _ _ _ _ SN AR _ _ _ _ _ (at_start _ _ _ _ _ _ _ _ _ E0) EL) as (c0 & E1 & M). rewrite E1 in E.
  exact (finish_protected depth SN ES _ _ _ NN E).
Qed.
End Props.

Print Assumptions C49_models_match_clusters.
Print Assumptions C49_assertions_never_fail.
Print Assumptions C49_one_model_covers_everything.
Print Assumptions C49_extracted_spans_the_data.
Print Assumptions C50_at_most_three_levels.
Print Assumptions C69_protected_initial_peaks_survive.

(** ** The hypotheses are satisfiable and the conclusions are not trivial *)
(** A world whose estimator puts a peak of half the height on the highest point, so that
    a residual worth a nested extraction is left. *)
Definition tallest (c : cluster xpeak Z) : result (option xpeak) :=
  match combine (r_cluster c) (y_cluster c) with
  | [] => Err EstimationError
  | a :: r => let m := fold_left (fun b q => if snd b <? snd q then q else b) r a in
              Ok (Some (xp (fst m) ((snd m + 1) / 2) true))
  end.
Definition vworld : world xpeak Z Z :=
  mkWorld (fun x => x) (fun p => fst (fst p)) snd (fun _ => false)
    xvalue (fun cf p => 3%nat) (fun cf b => 1%nat) (fun b r => map (fun _ => b) r) Z.eqb isort (fun _ => 3%nat)
    (fun c => yqk c 0) Z.ltb (fun _ c _ => (length (c_model c) =? 0)%nat) tallest idle (fun a b => (a + b) / 2) (fun _ _ m => m).
Definition vtools : xtools xpeak Z Z :=
  mkTools vworld yqk zargmax DataClustersExamples.isort (fun _ n => Z.of_nat n) (fun z => z / 20 + 1).
Definition vx : list Z := [0; 1; 2; 3; 4; 5; 6; 7; 8; 9].
Definition vy : list Z := [16; 8; 32; 64; 8; 4; 40; 80; 8; 4].
Definition ve : list Z := [1; 1; 1; 1; 1; 1; 1; 1; 1; 1].
Definition show (r : option (result (cluster xpeak Z))) :=
  match r with Some (Ok c) => Some (Ok (c_model c, c_start c, c_stop c, adat (c_y c))) | Some (Err e) => Some (Err e) | None => None end.

Lemma vsane bl : sane vtools bl.
Proof.
  split; [split; intros; cbn [w_rnd t_w vtools vworld]; lia|]. split; [exact isort_ok|]. split; [exact DataClustersExamples.isort_ok|].
  split; [apply Z.eqb_refl|]. split; intros; apply map_length.
Qed.
Lemma vshape : engine_shape vworld snd.
Proof. intros m b c n ps ob out E. injection E as <- <- <-. induction m; constructor; auto. Qed.
Lemma vnonan : engine_no_nan vworld. Proof. intros m b c n ps ob _ p _. reflexivity. Qed.

(** Three levels suffice (C50), and two do not: nested calls of nested calls do happen. *)
Example C50_three_levels_are_reached :
  sane vtools 0 /\ engine_shape vworld snd /\ DataClustersSpec.increasing vx /\
  extract vtools 0 2 0 [7%nat] 2 1 vx vy ve [] = None /\
  extract vtools 0 2 0 [7%nat] 3 1 vx vy ve [] <> None.
Proof.
  assert (I : DataClustersSpec.increasing vx).
  { intros i j a b Hij Hi Hj. assert (Hl : (j < length vx)%nat) by (apply nth_error_Some; congruence). change (length vx) with 10%nat in Hl.
    assert (V : forall n, (n < 10)%nat -> nth_error vx n = Some (Z.of_nat n)) by (intros n Hn; do 10 (destruct n; [reflexivity|]); lia).
    rewrite V in Hi, Hj by lia. injection Hi as <-. injection Hj as <-. lia. }
  split; [apply vsane|]. split; [exact vshape|]. split; [exact I|]. split; [vm_compute; reflexivity|].
  apply (C50_at_most_three_levels vtools 0 2 0 [7%nat] snd); [apply vsane|exact vshape|lia|lia|exact I|discriminate|reflexivity|reflexivity].
Qed.

(** The whole extraction, with a protected peak at 5. *)
Example C69_nonvacuous :
  engine_no_nan vworld /\
  show (extract vtools 0 2 0 [7%nat] 3 1 vx vy ve [xp 5 3 false; xp 9 1 true]) =
  Some (Ok ([xp 2 8 true; xp 2 16 true; xp 3 16 true; xp 3 8 true; xp 3 32 true; xp 5 3 false; xp 6 20 true;
    xp 6 5 true; xp 6 10 true; xp 7 10 true; xp 7 40 true; xp 7 20 true], 0%nat, 10%nat, vy)).
Proof. split; [exact vnonan|]. vm_compute. reflexivity. Qed.

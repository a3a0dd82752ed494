(** Properties C01-C11: clustering (dataclusters.py).
    Only statements, [exact]-style proofs, examples and Print Assumptions. *)
From Coq Require Import Sorted.
From Verif Require Import DataClustersSpec DataClustersProofs DataClustersAdj
  DataClustersMore DataClustersExamples.
Open Scope Z_scope.

(** ** C01 *)
Theorem C01_clusters_well_formed :
  forall rnd argsort x y r s,
    faithful rnd -> argsort_ok argsort -> increasing x -> x <> [] ->
    reach rnd argsort x y r s ->
    well_formed (Z.of_nat (length x)) (clusters s) /\ clusters s <> [] /\
    xs s = x /\ ys s = y /\ res s = r.
Proof.
  intros rnd argsort x y r s H1 H2 H3 H4 H5.
  pose proof (A_inv rnd argsort x y r s H1 H2 H3 H4 H5) as I. destruct I; auto.
Qed.
Print Assumptions C01_clusters_well_formed.

Example C01_nonvacuous :
  reach (fun z => z) isort ex_x ex_y 12 (steps 3 (ex_new 12)) /\
  clusters (steps 3 (ex_new 12)) = [(1, 2); (4, 5)] /\ increasing ex_x /\
  faithful coarse /\ coarse 3 = 4.
Proof.
  split; [apply ex_reach; lia|]. split; [vm_compute; reflexivity|].
  split; [apply incb_increasing; reflexivity|]. split; [exact coarse_faithful|reflexivity].
Qed.

(** Construction raises ValueError exactly for mismatched lengths or a
    negative resolution, and an empty object is never iterated. *)
Theorem C01_construct_validation :
  forall argsort x y r, argsort_ok argsort ->
    (construct argsort x y r = Err ValueError <-> length x <> length y \/ r < 0) /\
    ((exists s, construct argsort x y r = Ok s) <-> length x = length y /\ 0 <= r) /\
    (forall s, construct argsort [] [] r = Ok s ->
       forall rnd, next rnd s = (s, Err GenericException) /\
                   reset_clusters s = (s, Err IndexError)).
Proof.
  intros argsort x y r Hs.
  assert (A : length x = length y -> 0 <= r -> exists s, construct argsort x y r = Ok s).
  { intros E Hr. unfold construct. rewrite E, Nat.eqb_refl. cbn [negb].
    destruct (Z.ltb_spec r 0); [lia|]. destruct (Nat.eqb_spec (length y) 0); [eauto|].
    rewrite (argsort_last argsort Hs y) by lia. cbn [bind]. eauto. }
  split; [|split].
  - unfold construct. destruct (Nat.eqb_spec (length x) (length y)) as [E|E]; cbn [negb]; [|tauto].
    destruct (Z.ltb_spec r 0); [tauto|]. split; [|lia].
    destruct (A E ltac:(lia)) as [s Hs2]. unfold construct in Hs2.
    rewrite E, Nat.eqb_refl in Hs2. cbn [negb] in Hs2. destruct (Z.ltb_spec r 0); [lia|].
    rewrite E, Hs2. discriminate.
  - split; [|intros [E Hr]; auto]. intros [s H]. unfold construct in H.
    destruct (Nat.eqb_spec (length x) (length y)) as [E|E]; cbn [negb] in H; [|discriminate].
    destruct (Z.ltb_spec r 0); [discriminate|]. split; [exact E|lia].
  - intros s H rnd. unfold construct in H. cbn in H. destruct (r <? 0); [discriminate|].
    injection H as <-. split; reflexivity.
Qed.
Print Assumptions C01_construct_validation.

(** ** C02 *)
Theorem C02_next_progress :
  forall rnd argsort x y r s s',
    faithful rnd -> argsort_ok argsort -> increasing x -> x <> [] ->
    reach rnd argsort x y r s -> next rnd s = (s', Ok tt) ->
    exists t k lo hi, lastp s' = Some t /\ 0 <= t < Z.of_nat (length x) /\
      ~ covered (clusters s) t /\
      (forall i, covered (clusters s) i \/ i = t -> covered (clusters s') i) /\
      (forall u, 0 <= u < Z.of_nat (length x) -> ~ covered (clusters s) u -> at_ y u <= at_ y t) /\
      lastc s' = Some k /\ nth_error (clusters s') k = Some (lo, hi) /\ lo <= t <= hi.
Proof.
  intros rnd argsort x y r s s' H1 H2 H3 H4 H5 H6.
  exact (A_progress rnd argsort x y r s H1 H2 H3 H4 H5 s' H6).
Qed.
Print Assumptions C02_next_progress.

(** The only exception of a reachable iterator is StopIteration, raised only
    when everything is clustered, and it changes neither clusters nor marks. *)
Theorem C02_next_stops_only_when_all_clustered :
  forall rnd argsort x y r s s' e,
    faithful rnd -> argsort_ok argsort -> increasing x -> x <> [] ->
    reach rnd argsort x y r s -> next rnd s = (s', Err e) ->
    e = StopIteration /\ clusters s' = clusters s /\ lastp s' = lastp s /\ lastc s' = lastc s /\
    st s' = DONE /\ forall i, 0 <= i < Z.of_nat (length x) -> covered (clusters s) i.
Proof.
  intros rnd argsort x y r s s' e H1 H2 H3 H4 H5 H6.
  exact (A_next_raises rnd argsort x y r s H1 H2 H3 H4 H5 s' e H6).
Qed.
Print Assumptions C02_next_stops_only_when_all_clustered.

Example C02_nonvacuous :
  snd (next (fun z => z) (steps 2 (ex_new 12))) = Ok tt /\
  lastp (fst (next (fun z => z) (steps 2 (ex_new 12)))) = Some 2 /\
  snd (next (fun z => z) (steps 6 (ex_new 12))) = Err StopIteration.
Proof. vm_compute. auto. Qed.

(** Strict monotonicity of x is needed: with a repeated coordinate a point can
    be skipped forever although the iterator reports it is done. *)
Theorem C02_duplicate_x_refuted :
  exists x y s', construct isort x y 0 = Ok s' /\
    (forall i j a b, (i <= j)%nat -> nth_error x i = Some a -> nth_error x j = Some b -> a <= b) /\
    exists s'' k, makeclusters (fun z => z) 10 s' = Some (s'', k, Ok tt) /\
    st s'' = DONE /\ ~ covered (clusters s'') 1.
Proof.
  exists [5; 5], [9; 3]. eexists. split; [vm_compute; reflexivity|]. split.
  - intros i j a b Hij Hi Hj.
    destruct i as [|[|i]], j as [|[|j]]; cbn in *; try congruence;
      try (injection Hi as <-; injection Hj as <-; lia);
      try (destruct i; discriminate); try (destruct j; discriminate); lia.
  - eexists _, _. split; [vm_compute; reflexivity|]. split; [reflexivity|].
    intros (lo & hi & [E|[]] & H). injection E as <- <-. lia.
Qed.
Print Assumptions C02_duplicate_x_refuted.

(** ** C03 *)
Theorem C03_makeclusters_terminates_and_covers :
  forall rnd argsort x y r s fuel,
    faithful rnd -> argsort_ok argsort -> increasing x -> x <> [] ->
    reach rnd argsort x y r s -> (length x <= fuel)%nat ->
    exists s' k, makeclusters rnd fuel s = Some (s', k, Ok tt) /\ (k <= length x - 1)%nat /\
      st s' = DONE /\ next rnd s' = (s', Err StopIteration) /\
      well_formed (Z.of_nat (length x)) (clusters s') /\
      forall i, 0 <= i < Z.of_nat (length x) ->
        exists! k, exists lo hi, nth_error (clusters s') k = Some (lo, hi) /\ lo <= i <= hi.
Proof.
  intros rnd argsort x y r s fuel H1 H2 H3 H4 H5 H6.
  exact (A_make rnd argsort x y r s H1 H2 H3 H4 H5 fuel H6).
Qed.
Print Assumptions C03_makeclusters_terminates_and_covers.

Example C03_nonvacuous : exists s' k,
  makeclusters (fun z => z) 7 (ex_new 12) = Some (s', k, Ok tt) /\
  k = 6%nat /\ clusters s' = [(0, 2); (3, 6)].
Proof. eexists _, _. vm_compute. auto. Qed.

(** ** C04 *)
Theorem C04_resolution_rule :
  forall rnd argsort x y r s s' t,
    faithful rnd -> argsort_ok argsort -> increasing x -> x <> [] ->
    reach rnd argsort x y r s -> next rnd s = (s', Ok tt) -> lastp s' = Some t ->
    (exists pre post, clusters s = pre ++ post /\ clusters s' = pre ++ (t, t) :: post /\
       lastc s' = Some (length pre) /\
       forall c, In c (clusters s) -> r < gap rnd x c t) \/
    (exists pre post lo hi, clusters s = pre ++ (lo, hi) :: post /\
       clusters s' = pre ++ (Z.min lo t, Z.max hi t) :: post /\
       lastc s' = Some (length pre) /\
       gap rnd x (lo, hi) t <= r /\
       forall c, In c (clusters s) -> gap rnd x (lo, hi) t <= gap rnd x c t).
Proof.
  intros rnd argsort x y r s s' t H1 H2 H3 H4 H5 H6 H7.
  exact (A_step rnd argsort x y r s H1 H2 H3 H4 H5 s' t H6 H7).
Qed.
Print Assumptions C04_resolution_rule.

(** Both branches occur, also exactly at distance = resolution. *)
Example C04_nonvacuous :
  clusters (steps 1 (ex_new 10)) = [(1, 1); (5, 5)] /\
  clusters (steps 2 (ex_new 10)) = [(1, 1); (4, 5)] /\
  clusters (steps 2 (ex_new 9)) = [(1, 1); (4, 4); (5, 5)].
Proof. vm_compute. auto. Qed.

(** ** C05 *)
Theorem C05_find_nearest_cluster_correct :
  forall rnd s idx,
    faithful rnd -> st s <> INIT -> increasing (xs s) ->
    well_formed (Z.of_nat (length (xs s))) (clusters s) -> clusters s <> [] ->
    0 <= idx < Z.of_nat (length (xs s)) ->
    exists k d lo hi, find_nearest_cluster rnd s idx = Ok (Some (k, d)) /\
      nth_error (clusters s) k = Some (lo, hi) /\
      (d = 0 <-> lo <= idx <= hi) /\ (d = 0 <-> covered (clusters s) idx) /\
      (d < 0 -> idx < lo /\ d = rnd (at_ (xs s) idx - at_ (xs s) lo)) /\
      (0 < d -> hi < idx /\ d = rnd (at_ (xs s) idx - at_ (xs s) hi)) /\
      (forall c, In c (clusters s) -> Z.abs d <= gap rnd (xs s) c idx) /\
      (* a tie goes to the right-hand cluster *)
      (0 < d -> forall c, nth_error (clusters s) (S k) = Some c -> d < gap rnd (xs s) c idx).
Proof.
  intros rnd s idx H1 H2 H3 H4 H5 H6.
  destruct (find_nearest_ok rnd H1 s idx H2 H3 H4 H5 H6) as (k & d & E & N).
  pose proof N as N0. destruct N as (lo & hi & Hk & Hc & Hm).
  exists k, d, lo, hi. split; [exact E|]. split; [exact Hk|].
  assert (U : d <> 0 -> ~ covered (clusters s) idx).
  { intros Hd. eapply (nearest_nonzero_uncovered rnd); eauto. }
  assert (C0 : d = 0 -> covered (clusters s) idx).
  { intros Hd. eapply (nearest_zero_covered rnd); eauto. }
  split; [destruct Hc as [?|[?|?]]; lia|]. split.
  - split; [exact C0|]. intros Hcov. destruct (Z.eq_dec d 0); [assumption|]. exfalso; apply U; auto.
  - split; [destruct Hc as [?|[?|?]]; [lia|intros; tauto|lia]|].
    split; [destruct Hc as [?|[?|?]]; [lia|lia|intros; tauto]|].
    split.
    + intros c Hin. apply In_nth_error in Hin. destruct Hin as [k' Hk']. eauto.
    + intros Hd [l h] Hs. destruct Hc as [?|[?|(_ & _ & _ & Q)]]; [lia|lia|]. apply (Q l h Hs).
Qed.
Print Assumptions C05_find_nearest_cluster_correct.

Example C05_nonvacuous :
  let s := steps 2 (ex_new 10) in
  clusters s = [(1, 1); (4, 5)] /\
  find_nearest_cluster (fun z => z) s 2 = Ok (Some (0%nat, 10)) /\
  find_nearest_cluster (fun z => z) s 3 = Ok (Some (1%nat, -10)) /\
  find_nearest_cluster (fun z => z) s 5 = Ok (Some (1%nat, 0)) /\
  find_nearest_cluster (fun z => z) s 0 = Ok (Some (0%nat, -10)) /\
  find_nearest_cluster (fun z => z) s 6 = Ok (Some (1%nat, 10)).
Proof. vm_compute. auto 10. Qed.

(** ** C06 : false of the code in three ways; correct only on data points. *)
(** Any coordinate right of the last data point raises IndexError. *)
Theorem C06_right_of_data_raises_refuted :
  forall rnd s v, st s <> INIT -> xs s <> [] ->
    well_formed (Z.of_nat (length (xs s))) (clusters s) -> clusters s <> [] ->
    (forall a, In a (xs s) -> a < v) ->
    find_nearest_cluster2 rnd s v = Err IndexError.
Proof. intros rnd s v H1 H2 H3 H4 H5. exact (find2_right rnd s v H1 H3 H4 H5 H2). Qed.
Print Assumptions C06_right_of_data_raises_refuted.

(** Any coordinate up to and including the first data point is answered as if
    it were the last data point. *)
Theorem C06_left_of_data_wraps_refuted :
  forall rnd s v lo hi cs, faithful rnd -> st s <> INIT -> increasing (xs s) ->
    well_formed (Z.of_nat (length (xs s))) (clusters s) ->
    clusters s = (lo, hi) :: cs -> v <= at_ (xs s) 0 ->
    find_nearest_cluster2 rnd s v =
      Ok (Some (0%nat, rnd (at_ (xs s) (Z.of_nat (length (xs s)) - 1) - at_ (xs s) lo))).
Proof. intros rnd s v lo hi cs H1 H2 H3 H4 H5 H6. exact (find2_left rnd s v H1 H2 H3 H4 lo hi cs H5 H6). Qed.
Print Assumptions C06_left_of_data_wraps_refuted.

(** Between two points the right one is always used, even if v is at the left one's side. *)
Theorem C103_between_points :
  forall rnd s i v, st s <> INIT -> increasing (xs s) -> (0 < i < length (xs s))%nat ->
    at_ (xs s) (Z.of_nat i - 1) < v <= at_ (xs s) (Z.of_nat i) ->
    find_nearest_cluster2 rnd s v = find_nearest_cluster rnd s (Z.of_nat i).
Proof. intros rnd s i v H1 H2 H3 H4. exact (find2_at rnd s i H1 H2 (proj1 H3) (proj2 H3) v H4). Qed.
Print Assumptions C103_between_points.

(** Concrete reachable instance of all three. *)
Theorem C06_refuted :
  exists s, reach (fun z => z) isort ex_x ex_y 10 s /\ clusters s = [(1, 1); (4, 5)] /\
    find_nearest_cluster2 (fun z => z) s 61 = Err IndexError /\
    find_nearest_cluster2 (fun z => z) s 0 = Ok (Some (0%nat, 50)) /\   (* true answer: -10 *)
    find_nearest_cluster2 (fun z => z) s 11 = Ok (Some (0%nat, 10)).    (* nearest point 1 is inside *)
Proof. exists (steps 2 (ex_new 10)). split; [apply ex_reach; lia|]. vm_compute. auto. Qed.
Print Assumptions C06_refuted.

(** ** C07 *)
Theorem C07_find_adjacent_exact :
  forall s, st s <> INIT ->
  exists runs,
    (forall l r, In (l, r) runs <-> maximal_run (clusters s) l r) /\
    StronglySorted (fun p q => (snd p < fst q)%nat) runs /\
    ((find_adjacent_clusters s = Ok (map (fun p => seq (fst p) (snd p + 1 - fst p)) runs)) \/
     (find_adjacent_clusters s = Err ValueError /\
      exists l r l' r', maximal_run (clusters s) l r /\ maximal_run (clusters s) l' r' /\
                        (r - l <> r' - l')%nat)).
Proof. intros s H. exact (ex_intro _ _ (find_adjacent_char s H)). Qed.
Print Assumptions C07_find_adjacent_exact.

Example C07_nonvacuous :
  find_adjacent_clusters (steps 3 (ex_new 0)) = Ok [[0; 1]; [2; 3]]%nat /\
  clusters (steps 3 (ex_new 0)) = [(1, 1); (2, 2); (4, 4); (5, 5)] /\
  maximal_run (clusters (steps 3 (ex_new 0))) 0 1.
Proof.
  split; [vm_compute; reflexivity|]. split; [vm_compute; reflexivity|].
  apply adjacent_runs_spec. vm_compute. auto.
Qed.

(** Runs of different lengths make the query raise on a reachable state. *)
Theorem C71_ragged_runs_refuted :
  exists s, reach (fun z => z) isort ex_x ex_y 0 s /\ st s = CLUSTERING /\
    clusters s = [(1, 1); (2, 2); (4, 4); (5, 5); (6, 6)] /\
    find_adjacent_clusters s = Err ValueError.
Proof. exists (steps 4 (ex_new 0)). split; [apply ex_reach; lia|]. vm_compute. auto. Qed.
Print Assumptions C71_ragged_runs_refuted.

(** ** C08 *)
Theorem C08_combine_adjacent :
  forall s rows n,
    well_formed n (clusters s) -> find_adjacent_clusters s = Ok rows -> rows <> [] ->
    exists s', combine_clusters s rows = (s', Ok tt) /\
      well_formed n (clusters s') /\
      (forall i, covered (clusters s') i <-> covered (clusters s) i) /\
      (length (clusters s') + length (concat (map (@tl nat) rows)) = length (clusters s))%nat /\
      (forall i, ~ touching (clusters s') i).
Proof.
  intros s rows n W H Hne. destruct (combine_adjacent n s rows W H Hne) as (s' & E & I & T).
  destruct (combine_ok n s rows s' W I E). exists s'. auto 6.
Qed.
Print Assumptions C08_combine_adjacent.

(** Whatever increasing request is accepted, clusters keep their points; only
    runs of touching clusters are accepted. *)
Theorem C08_combine_accepted_sound :
  forall s g s' n,
    well_formed n (clusters s) -> increasing_groups g ->
    combine_clusters s g = (s', Ok tt) ->
    NoDup (concat g) /\
    (forall c, In c g -> exists f m, c = seq f (S m) /\
       forall i, (f <= i < f + m)%nat -> touching (clusters s) i) /\
    well_formed n (clusters s') /\
    (forall i, covered (clusters s') i <-> covered (clusters s) i) /\
    (length (clusters s') + length (concat (map (@tl nat) g)) = length (clusters s))%nat /\
    xs s' = xs s /\ ys s' = ys s /\ order s' = order s /\ res s' = res s /\
    cur s' = cur s /\ lastc s' = lastc s /\ lastp s' = lastp s /\ st s' = st s.
Proof.
  intros s g s' n W I E. split.
  - unfold combine_clusters in E. destruct (np_array2 g); [|discriminate].
    destruct (has_dup (concat g)) eqn:D; [discriminate|]. apply has_dup_false. exact D.
  - destruct (combine_ok n s g s' W I E). auto 20.
Qed.
Print Assumptions C08_combine_accepted_sound.

Example C08_nonvacuous :
  snd (combine_clusters (steps 3 (ex_new 0)) [[0; 1]; [2; 3]]%nat) = Ok tt /\
  clusters (fst (combine_clusters (steps 3 (ex_new 0)) [[0; 1]; [2; 3]]%nat)) = [(1, 2); (4, 5)] /\
  increasing_groups [[0; 1]; [2; 3]]%nat.
Proof.
  split; [vm_compute; reflexivity|]. split; [vm_compute; reflexivity|].
  apply increasing_pairs_ok; lia.
Qed.

(** A request naming a cluster twice raises ValueError and changes nothing. *)
Theorem C08_duplicates_rejected :
  forall s g, ~ NoDup (concat g) -> combine_clusters s g = (s, Err ValueError).
Proof.
  intros s g H. unfold combine_clusters.
  assert (E : has_dup (concat g) = true).
  { destruct (has_dup (concat g)) eqn:E; [reflexivity|]. apply has_dup_false in E. contradiction. }
  rewrite E. destruct (np_array2_ok g) as [[-> _]|[-> _]]; reflexivity.
Qed.
Print Assumptions C08_duplicates_rejected.

(** combine_clusters is not atomic: a request rejected at its second group has
    already overwritten the first; overlapping clusters remain. *)
Theorem C72_rejected_combine_not_atomic_refuted :
  exists s g s', reach (fun z => z) isort ex_x ex_y 0 s /\ increasing_groups g /\
    combine_clusters s g = (s', Err IndexError) /\ clusters s' <> clusters s /\
    ~ well_formed (Z.of_nat (length ex_x)) (clusters s').
Proof.
  exists (steps 3 (ex_new 0)), [[0; 1]; [2; 4]]%nat,
    (fst (combine_clusters (steps 3 (ex_new 0)) [[0; 1]; [2; 4]]%nat)).
  split; [apply ex_reach; lia|]. split; [apply increasing_pairs_ok; lia|].
  assert (E1 : clusters (steps 3 (ex_new 0)) = [(1, 1); (2, 2); (4, 4); (5, 5)])
    by (vm_compute; reflexivity).
  assert (E2 : clusters (fst (combine_clusters (steps 3 (ex_new 0)) [[0; 1]; [2; 4]]%nat)) =
               [(1, 2); (2, 2); (4, 4); (5, 5)]) by (vm_compute; reflexivity).
  split; [vm_compute; reflexivity|]. rewrite E2, E1. split; [intros H; discriminate H|].
  intros [_ W]. pose proof (W 0%nat 1%nat 1 2 2 2 ltac:(lia) eq_refl eq_refl). lia.
Qed.
Print Assumptions C72_rejected_combine_not_atomic_refuted.

(** A decreasing pair is accepted and corrupts the clusters. *)
Theorem C72_decreasing_accepted_refuted :
  exists s s', reach (fun z => z) isort ex_x ex_y 0 s /\
    combine_clusters s [[1; 0]]%nat = (s', Ok tt) /\
    clusters s' = [(2, 1); (4, 4); (5, 5)].
Proof.
  exists (steps 3 (ex_new 0)). eexists. split; [apply ex_reach; lia|].
  split; vm_compute; reflexivity.
Qed.
Print Assumptions C72_decreasing_accepted_refuted.

(** ** C09 *)
Theorem C09_reset_restarts_same_run :
  forall rnd argsort x y r s s0,
    faithful rnd -> argsort_ok argsort -> increasing x -> x <> [] ->
    reach rnd argsort x y r s -> construct argsort x y r = Ok s0 ->
    exists s1, reset_clusters s = (s1, Ok tt) /\ lastc s0 = None /\ lastc s1 = Some 0%nat /\
    forall k, let a := iter_next rnd k s1 in let b := iter_next rnd k s0 in
      clusters a = clusters b /\ lastp a = lastp b /\ cur a = cur b /\ st a = st b /\
      snd (next rnd a) = snd (next rnd b).
Proof.
  intros rnd argsort x y r s s0 H1 H2 H3 H4 H5 H6.
  exact (A_reset rnd argsort x y r s H1 H2 H3 H4 H5 s0 H6).
Qed.
Print Assumptions C09_reset_restarts_same_run.

Example C09_nonvacuous :
  clusters (fst (reset_clusters (steps 4 (ex_new 12)))) = [(5, 5)] /\
  clusters (steps 4 (ex_new 12)) <> [(5, 5)].
Proof. vm_compute. split; [reflexivity|discriminate]. Qed.

(** ** C10 *)
Theorem C10_zero_resolution_singletons :
  forall rnd argsort x y s0,
    faithful rnd -> argsort_ok argsort -> increasing x -> x <> [] ->
    construct argsort x y 0 = Ok s0 ->
    exists s' k, makeclusters rnd (length x) s0 = Some (s', k, Ok tt) /\
      clusters s' = map (fun i => (Z.of_nat i, Z.of_nat i)) (seq 0 (length x)) /\
      k = (length x - 1)%nat.
Proof.
  intros rnd argsort x y s0 H1 H2 H3 H4 H5.
  destruct (A_make rnd argsort x y 0 s0 H1 H2 H3 H4 (reach_new _ _ _ _ _ _ H5) (length x) (le_n _))
    as (s' & k & E & _).
  exists s', k. split; [exact E|]. exact (zero_res rnd argsort x y s0 s' k (length x) H1 H2 H3 H4 H5 E).
Qed.
Print Assumptions C10_zero_resolution_singletons.

Example C10_nonvacuous : exists s0, construct isort ex_x ex_y 0 = Ok s0 /\ increasing ex_x.
Proof. eexists. split; [vm_compute; reflexivity|apply incb_increasing; reflexivity]. Qed.

(** ** C11 *)
Theorem C11_cut_exact :
  forall s k lo hi, nth_error (clusters s) k = Some (lo, hi) ->
    exists a b, cut s k = Ok (a, b) /\ forall i, a <= i < b <-> lo <= i <= hi.
Proof.
  intros s k lo hi H. unfold cut. rewrite H. exists lo, (hi + 1). split; [reflexivity|]. intros; lia.
Qed.
Print Assumptions C11_cut_exact.

Theorem C11_cluster_is_full_exact :
  forall n s k lo hi, well_formed n (clusters s) -> n = Z.of_nat (length (order s)) ->
    nth_error (clusters s) k = Some (lo, hi) ->
    exists b, cluster_is_full s k = Ok b /\
     (b = true <-> forall i, (i = lo - 1 \/ i = hi + 1) -> 0 <= i < n -> covered (clusters s) i).
Proof. intros n s k lo hi H1 H2 H3. exact (full_ok n s k lo hi H1 H2 H3). Qed.
Print Assumptions C11_cluster_is_full_exact.

Example C11_nonvacuous :
  cluster_is_full (steps 4 (ex_new 12)) 0 = Ok false /\
  clusters (steps 4 (ex_new 12)) = [(1, 2); (4, 6)] /\
  cluster_is_full (steps 6 (ex_new 12)) 0 = Ok true.
Proof. vm_compute. auto. Qed.

(** C227: the clusters of a data set do not depend on the units or the origin of its
    coordinates, nor on anything about its values but their order. *)
From Verif Require Import Prelude DataClusters DataClustersSpec DataClustersExamples ClusterScale.
Open Scope Z_scope.

(** What a user sees of an object after each operation of a history: the outcome of the
    operation, the clusters, the last cluster and point touched and the status. *)
Definition seen : Type := (result unit * list (Z * Z) * option nat * option Z * status)%type.
Definition shown (s : dc) (r : result unit) : seen := (r, clusters s, lastc s, lastp s, st s).
Fixpoint history (rnd : Z -> Z) (s : dc) (ops : list op) : list seen :=
  match ops with
  | [] => []
  | o :: ops => let (s1, r) := apply rnd s o in shown s1 r :: history rnd s1 ops
  end.
Fixpoint after (rnd : Z -> Z) (s : dc) (ops : list op) : dc :=
  match ops with [] => s | o :: ops => after rnd (fst (apply rnd s o)) ops end.

Section C227.
Variables (rnd rnd' : Z -> Z) (a b : Z).
Hypothesis a_pos : 0 < a.
Hypothesis rnd_scale : forall z, rnd' (a * z) = a * rnd z.
Lemma sim_history ops : forall s s', sim a b s s' -> history rnd' s' ops = history rnd s ops.
Proof.
  induction ops as [|o ops IH]; intros s s' H; [reflexivity|]. cbn [history].
  destruct (apply_sim rnd rnd' a b a_pos rnd_scale s s' o H) as [H1 H2].
  destruct (apply rnd s o) as [s1 r1]. destruct (apply rnd' s' o) as [s2 r2]. cbn [fst snd] in H1, H2.
  rewrite (IH _ _ H1), H2. f_equal. destruct H1 as (_ & _ & C & _ & _ & LC & LP & S). unfold shown. congruence.
Qed.
Lemma sim_after ops : forall s s', sim a b s s' -> sim a b (after rnd s ops) (after rnd' s' ops).
Proof.
  induction ops as [|o ops IH]; intros s s' H; [exact H|]. cbn [after].
  apply IH. now apply (apply_sim rnd rnd' a b a_pos rnd_scale).
Qed.
End C227.

(** For every data set and threshold, every positive factor [a] and offset [b] of the
    coordinates (and of the threshold), and every strictly increasing change [f] of the
    values: the constructors fail or succeed together, and every history of operations
    shows the same on both objects; the nearest cluster to a point or coordinate is the same,
    at the distance scaled by [a].  Values are either distinct, or the two sorts agree on
    equal ones.  [rnd], [rnd'] are the roundings of subtractions in both units. *)
Theorem C227_clusters_do_not_depend_on_units :
  forall rnd rnd' argsort argsort' x y r a b f,
  0 < a -> (forall z, rnd' (a * z) = a * rnd z) -> (forall u v, u < v -> f u < f v) ->
  argsort_ok argsort -> argsort_ok argsort' -> NoDup y \/ argsort' (map f y) = argsort y ->
  (forall e, construct argsort x y r = Err e <-> construct argsort' (map (fun t => a * t + b) x) (map f y) (a * r) = Err e) /\
  forall s, construct argsort x y r = Ok s ->
  exists s', construct argsort' (map (fun t => a * t + b) x) (map f y) (a * r) = Ok s' /\
  forall ops, history rnd' s' ops = history rnd s ops /\
    let t := after rnd s ops in let t' := after rnd' s' ops in
    clusters t' = clusters t /\
    (forall i, find_nearest_cluster rnd' t' i =
       match find_nearest_cluster rnd t i with Ok (Some (k, d)) => Ok (Some (k, a * d)) | o => o end) /\
    (forall v, find_nearest_cluster2 rnd' t' (a * v + b) =
       match find_nearest_cluster2 rnd t v with Ok (Some (k, d)) => Ok (Some (k, a * d)) | o => o end).
Proof.
  intros rnd rnd' argsort argsort' x y r a b f A R F S1 S2 U.
  assert (OE : argsort' (map f y) = argsort y) by (destruct U as [N|E]; [now apply argsort_unique|exact E]).
  assert (CE : construct argsort' (map (fun t => a * t + b) x) (map f y) (a * r) =
               match construct argsort x y r with
               | Ok s => Ok (mkdc (map (affine a b) x) (map f y) (order s) (clusters s) (a * r) (cur s) (lastc s) (lastp s) (st s))
               | Err e => Err e
               end).
  { unfold construct. rewrite !map_length, OE.
    replace (a * r <? 0) with (r <? 0) by (destruct (Z.ltb_spec r 0); symmetry; [apply Z.ltb_lt|apply Z.ltb_ge]; nia).
    destruct (negb _); [reflexivity|]. destruct (r <? 0); [reflexivity|].
    destruct (Nat.eqb (length x) 0); [reflexivity|]. destruct (pyget (argsort y) (-1)); reflexivity. }
  split.
  - intros e. rewrite CE. destruct (construct argsort x y r); split; congruence.
  - intros s HS. rewrite CE, HS. eexists. split; [reflexivity|]. intros ops.
    assert (SIM : sim a b s (mkdc (map (affine a b) x) (map f y) (order s) (clusters s) (a * r) (cur s) (lastc s) (lastp s) (st s))).
    { assert (E : xs s = x /\ res s = r).
      { revert HS. unfold construct. destruct (negb _); [discriminate|]. destruct (r <? 0); [discriminate|].
        destruct (Nat.eqb (length x) 0); [intros E; injection E as <-; now split|].
        destruct (pyget (argsort y) (-1)); cbn [bind]; [intros E; injection E as <-; now split|discriminate]. }
      destruct E as [<- <-]. repeat split. }
    split; [now apply (sim_history rnd rnd' a b)|].
    pose proof (sim_after rnd rnd' a b A R ops _ _ SIM) as SA. cbv zeta. split; [apply SA|]. split.
    + intros i. rewrite (near_sim rnd rnd' a b A R _ _ i SA). now destruct (find_nearest_cluster _ _ i) as [[[]|]|].
    + intros v. pose proof (near2_sim rnd rnd' a b A R _ _ v SA) as E. change (affine a b v) with (a * v + b) in E. rewrite E. now destruct (find_nearest_cluster2 _ _ v) as [[[]|]|].
Qed.

(** The units change from nanometres to angstroms with a shifted origin, the values are
    tripled and lowered: four points in two clusters, and then joined. *)
Example C227_nonvacuous :
  let f := fun v => 3 * v - 7 in
  (forall u v, u < v -> f u < f v) /\ NoDup [3; 9; 5; 8] /\
  exists s s', construct isort [0; 1; 5; 6] [3; 9; 5; 8] 2 = Ok s /\
    construct isort (map (fun t => 10 * t + 4) [0; 1; 5; 6]) (map f [3; 9; 5; 8]) 20 = Ok s' /\
    map (fun v => snd (fst (fst (fst v)))) (history (fun z => z) s [Next; Next; Next; Combine [[0%nat; 1%nat]]])
      = [[(1, 1); (3, 3)]; [(1, 1); (2, 3)]; [(0, 1); (2, 3)]; [(0, 3)]] /\
    history (fun z => z) s' [Next; Next; Next; Combine [[0%nat; 1%nat]]] = history (fun z => z) s [Next; Next; Next; Combine [[0%nat; 1%nat]]].
Proof.
  cbv zeta. split; [intros; lia|]. split; [repeat constructor; cbn; intuition lia|].
  eexists. eexists. split; [vm_compute; reflexivity|]. split; [vm_compute; reflexivity|]. split; vm_compute; reflexivity.
Qed.

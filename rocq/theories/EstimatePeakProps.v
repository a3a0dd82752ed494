(** Properties C141-C143: estimating one peak at a coordinate (peakextraction.py:732-814). *)
From Coq Require Import Permutation Sorted.
From Verif Require Import Prelude ModelCluster ModelClusterProofs ModelClusterProps Prune PruneProofs PruneProps Extract ExtractProofs ExtractProps EstimatePeak.
From Verif Require DataClusters DataClustersSpec DataClustersProofs DataClustersMore DataClustersExamples DataClustersProps.
Open Scope Z_scope.

Section Props.
Context {P B Q : Type}.
Variable T : xtools P B Q.
Notation w := (t_w T).
Notation cluster := (cluster P B).
Notation pe := (pe P B).

(** Numpy and the optimiser: rounding is faithful, argsort sorts, and the optimiser
    changes parameters but neither adds nor drops a peak. *)
Definition sound_tools : Prop :=
  DataClustersSpec.faithful (w_rnd w) /\ DataClustersSpec.argsort_ok (t_argsort T) /\ argsort_ok (w_argsort w) /\
  (forall m b c n ps ob out, w_engine w m b c n = ((ps, ob), out) -> length ps = length m).

(** i is the first point at or right of v. *)
Definition first_from (x : list Z) (v : Z) (i : nat) : Prop :=
  (exists a, nth_error x i = Some a /\ v <= a) /\ forall j a, (j < i)%nat -> nth_error x j = Some a -> a < v.

(** [lo,hi] is one of the clusters of x, y at the resolution of the object. *)
Definition is_cluster (s : pe) (x y : list Z) (lo hi : Z) : Prop :=
  exists d d' k, DataClusters.construct (t_argsort T) x y (pe_cres s) = Ok d /\
    DataClusters.makeclusters (w_rnd w) (S (length x)) d = Some (d', k, Ok tt) /\
    DataClusters.st d' = DataClusters.DONE /\ In (lo, hi) (DataClusters.clusters d').

(** s' is s with the peak p added, in position order, and nothing else changed. *)
Definition added (s : pe) (p : P) (s' : pe) : Prop :=
  pe_x s' = pe_x s /\ pe_y s' = pe_y s /\ pe_e s' = pe_e s /\ pe_lo s' = pe_lo s /\ pe_hi s' = pe_hi s /\ pe_base s' = pe_base s /\
  pe_cres s' = pe_cres s /\ pe_em s' = pe_em s /\ pe_pf s' = pe_pf s /\
  match pe_extracted s with
  | None => pe_extracted s' = None /\ Permutation (pe_init s') (p :: pe_init s) /\ pos_sorted (w_position w) (pe_init s')
  | Some c => pe_init s' = pe_init s /\
      exists m, pe_extracted s' = Some (set_model c m) /\ Permutation m (p :: c_model c) /\ pos_sorted (w_position w) m
  end.

Lemma add_one s p : argsort_ok (w_argsort w) -> exists s', add_peaks T s [p] = (s', Ok tt) /\ added s p s'.
Proof.
  intros AS. unfold add_peaks, added. destruct (pe_extracted s) as [c|] eqn:E.
  - pose proof (C38_replace w AS [] [] (c_model c) [p]) as H. cbn [app length Nat.add Z.of_nat] in H.
    destruct (replacepeaks w (c_model c) [p] (Some 0) (Some 0)) as [m r]. destruct H as [((q & [] & _) & _)|(_ & -> & H1 & H2)].
    eexists. split; [reflexivity|]. cbn [pe_x pe_y pe_e pe_lo pe_hi pe_base pe_init pe_extracted pe_cres pe_em pe_pf].
    repeat (split; [reflexivity|]). exists m. split; [reflexivity|]. split; [exact H1|exact H2].
  - eexists. split; [reflexivity|]. cbn [pe_x pe_y pe_e pe_lo pe_hi pe_base pe_init pe_extracted pe_cres pe_em pe_pf].
    repeat (split; [reflexivity|]). split; [|now apply sort_sorted].
    rewrite (sort_perm w AS). apply Permutation_app_comm.
Qed.

Lemma del_at_len {A} (l : list A) i : (length (del_at l i) <= length l)%nat.
Proof. unfold del_at. rewrite app_length, firstn_length, skipn_length. lia. Qed.
Lemma cleanfit_len m rc ec m' n : cleanfit w m rc ec = Ok (m', n) -> (length m' <= length m)%nat.
Proof.
  unfold cleanfit. destruct (removed_indices _ _ _ _) as [rm|]; [|discriminate]. cbn [bind]. intros E. injection E as <- _.
  generalize (rev rm). intros l. revert m. induction l as [|i l IH]; intros m; [reflexivity|]. cbn [fold_left].
  rewrite IH. apply del_at_len.
Qed.

Lemma at_most_one s x y e l : sound_tools -> peaks_in T s x y e = Ok l -> (length l <= 1)%nat.
Proof.
  intros (_ & _ & AS & EN). unfold peaks_in.
  destruct (make_cluster _ _ _ _ _ _ _ _ _) as [c|] eqn:MK; [|discriminate]. cbn [bind].
  assert (M : c_model c = []).
  { unfold make_cluster, change_slice_from in MK. destruct (all_below _ _ _ _ _); [|discriminate]. now injection MK as <-. }
  clear MK. unfold fit. destruct (c_never c); [cbn [fr_out fr_c bind]; intros E; injection E as <-; rewrite M; auto|].
  rewrite M. destruct (estimatepeak w c) as [c1 o] eqn:EP.
  assert (L1 : (length (c_model c1) <= 1)%nat).
  { destruct (estimate_frame w c c1 o EP M) as (_ & _ & _ & [->|(p & _ & -> & _)]); [rewrite M; auto|].
    cbn [set_model c_model]. rewrite (Permutation_length (sort_perm w AS [p])). reflexivity. }
  destruct o as [b|x0]; [|destruct x0; cbn [fr_out fr_c bind]; intros E; try discriminate; injection E as <-; exact L1].
  cbn [andb]. set (c2 := set_last c1 _). assert (L2 : (length (c_model c2) <= 1)%nat) by exact L1.
  destruct (w_engine w (c_model c2) None c2 0) as [[ps ob] out] eqn:EG. pose proof (EN _ _ _ _ _ _ _ EG) as LP.
  destruct out as [[]|x0]; [|destruct x0; cbn [fr_out fr_c bind]; intros E; try discriminate; injection E as <-; exact L2].
  destruct (cleanfit _ _ _ _) as [[ps2 n]|] eqn:CF; [|discriminate].
  pose proof (cleanfit_len _ _ _ _ _ CF) as LC. rewrite (Permutation_length (sort_perm w AS ps)) in LC.
  destruct (w_qlt _ _ _); cbn [fr_out fr_c bind]; intros E; injection E as <-; [exact L2|]. cbn [set_base set_model c_model]. lia.
Qed.

(** Which cluster is looked at. *)
Lemma first_exists x v : x <> [] -> (exists a, In a x /\ v <= a) -> exists i, first_from x v i.
Proof.
  intros _ (a & Ha & L). induction x as [|b x IH]; [destruct Ha|].
  destruct (Z.le_gt_cases v b) as [G|G].
  - exists 0%nat. split; [exists b; auto|]. intros j c Hj. lia.
  - destruct Ha as [->|Ha]; [lia|]. destruct (IH Ha) as (i & (c & Hc & Lc) & F). exists (S i). split; [exists c; auto|].
    intros [|j] d Hj Hd; [cbn in Hd; injection Hd as <-; lia|]. cbn in Hd. apply (F j d); [lia|exact Hd].
Qed.

Lemma near_ok s x y v : sound_tools -> DataClustersSpec.increasing x -> length y = length x -> 0 <= pe_cres s ->
  (exists a, nth_error x 0 = Some a /\ a <= v) -> (exists a, In a x /\ v <= a) ->
  exists i lo hi, first_from x v i /\ is_cluster s x y lo hi /\ 0 <= lo <= Z.of_nat i /\ Z.of_nat i <= hi < Z.of_nat (length x) /\
    points_near T s x y v = Some (Ok (lo, hi + 1)).
Proof.
  intros (FR & AO & _ & _) IX LY RC (a0 & H0 & L0) UP.
  assert (NE : x <> []) by (destruct x; [discriminate|congruence]).
  destruct (first_exists x v NE UP) as (i & F). pose proof F as ((ai & Hi & Li) & FB).
  assert (Bi : (i < length x)%nat) by (apply nth_error_Some; congruence).
  destruct (proj2 (proj1 (proj2 (DataClustersProps.C01_construct_validation (t_argsort T) x y (pe_cres s) AO))) (conj (eq_sym LY) RC)) as (d & Hd).
  pose proof (DataClustersSpec.reach_new (w_rnd w) _ _ _ _ _ Hd) as RD.
  pose proof (DataClustersMore.A_inv _ _ _ _ _ _ FR AO IX NE RD) as ID.
  destruct (DataClustersMore.makeclusters_ok _ FR _ AO x y (pe_cres s) IX (S (length x)) d ID) as (d' & k & E & _ & I' & DN).
  { pose proof (DataClustersProofs.I_cur _ _ _ _ _ ID). lia. }
  pose proof (DataClustersProofs.I_wf _ _ _ _ _ I') as WF.
  pose proof (DataClustersProofs.I_x _ _ _ _ _ I') as XS.
  assert (ND : DataClusters.st d' <> DataClusters.INIT) by congruence.
  assert (CV : DataClustersSpec.covered (DataClusters.clusters d') (Z.of_nat i)).
  { apply (DataClustersMore.inv_done_covered _ AO x y (pe_cres s) d' I' DN). lia. }
  assert (WF' : DataClustersSpec.well_formed (Z.of_nat (length (DataClusters.xs d'))) (DataClusters.clusters d')) by (rewrite XS; exact WF).
  assert (IX' : DataClustersSpec.increasing (DataClusters.xs d')) by (rewrite XS; exact IX).
  assert (G : exists j dd lo hi, DataClusters.find_nearest_cluster2 (w_rnd w) d' v = Ok (Some (j, dd)) /\
     nth_error (DataClusters.clusters d') j = Some (lo, hi) /\ lo <= Z.of_nat i <= hi).
  { destruct i as [|i].
    - destruct (DataClusters.clusters d') as [|[lo hi] cs] eqn:CS; [destruct CV as (? & ? & [] & _)|].
      assert (V0 : v <= DataClustersSpec.at_ (DataClusters.xs d') 0).
      { rewrite XS. unfold DataClustersSpec.at_. cbn [Z.to_nat]. rewrite (nth_error_nth _ _ 0 Hi). exact Li. }
      pose proof (DataClustersProps.C06_left_of_data_wraps_refuted (w_rnd w) d' v lo hi cs FR ND IX' ltac:(rewrite CS; exact WF') CS V0) as E2.
      eexists 0%nat, _, lo, hi. split; [exact E2|]. split; [reflexivity|].
      destruct WF as [W1 W2]. destruct (W1 0%nat lo hi eq_refl) as [B1 B2].
      destruct CV as (l2 & h2 & Hin & Hl). apply In_nth_error in Hin. destruct Hin as [[|j] Hj].
      + cbn in Hj. injection Hj as <- <-. exact Hl.
      + pose proof (W2 0%nat (S j) lo hi l2 h2 ltac:(lia) eq_refl Hj). lia.
    - assert (V1 : DataClustersSpec.at_ (DataClusters.xs d') (Z.of_nat (S i) - 1) < v <= DataClustersSpec.at_ (DataClusters.xs d') (Z.of_nat (S i))).
      { rewrite XS. unfold DataClustersSpec.at_. replace (Z.to_nat (Z.of_nat (S i) - 1)) with i by lia. rewrite Nat2Z.id.
        rewrite (nth_error_nth _ _ 0 Hi). split; [|exact Li].
        destruct (nth_error x i) as [b|] eqn:Hb; [|apply nth_error_None in Hb; lia].
        rewrite (nth_error_nth _ _ 0 Hb). apply (FB i b); [lia|exact Hb]. }
      rewrite (DataClustersProps.C103_between_points (w_rnd w) d' (S i) v ND IX' ltac:(rewrite XS; lia) V1).
      destruct (DataClustersProps.C05_find_nearest_cluster_correct (w_rnd w) d' (Z.of_nat (S i)) FR ND IX' WF'
                  (DataClustersMore.covered_nonempty _ _ CV) ltac:(rewrite XS; lia)) as (j & dd & lo & hi & E2 & N & D0 & DC & _).
      exists j, dd, lo, hi. split; [exact E2|]. split; [exact N|]. apply D0, DC. exact CV. }
  destruct G as (j & dd & lo & hi & E2 & N & IN).
  pose proof (proj1 WF _ _ _ N) as [B1 B2].
  exists i, lo, hi. split; [exact F|]. split.
  { exists d, d', k. split; [exact Hd|]. split; [exact E|]. split; [exact DN|]. eapply nth_error_In; exact N. }
  split; [lia|]. split; [lia|].
  unfold points_near. rewrite Hd, E. rewrite E2. cbn [bind]. unfold DataClusters.cut. rewrite N. reflexivity.
Qed.

Lemma last_nth {A} (x : list A) (d : A) : x <> [] -> nth_error x (length x - 1) = Some (last x d).
Proof.
  intros H. destruct (exists_last H) as (l & a & ->). rewrite last_last, app_length. cbn [length].
  rewrite nth_error_app2 by lia. replace (length l + 1 - 1 - length l)%nat with 0%nat by lia. reflexivity.
Qed.

(** ** C141 *)
(** Outside the remaining data: ValueError, nothing changed. *)
Theorem C141_out_of_range :
  forall (s : pe) v add x1 y1 e1, remaining T s = (x1, y1, e1) -> x1 <> [] ->
    (forall a, In a x1 -> a < v) \/ (forall a, In a x1 -> v < a) -> estimate_peak T s v add = Some (s, Err ValueError).
Proof.
  intros s v add x1 y1 e1 E NE H. unfold estimate_peak. rewrite E. destruct x1 as [|x0 x]; [congruence|].
  pose proof (last_nth (x0 :: x) x0 ltac:(discriminate)) as LN.
  destruct (Z.ltb_spec v x0) as [L|L]; cbn [orb]; [reflexivity|].
  destruct (Z.ltb_spec (last (x0 :: x) x0) v) as [L2|L2]; [reflexivity|].
  destruct H as [H|H]; [|specialize (H x0 (or_introl eq_refl)); lia].
  apply nth_error_In in LN. specialize (H _ LN). lia.
Qed.

(** Within the data: the cluster holding the first point at or right of v is looked at,
    and nothing else; the result and the new state follow from it. *)
Theorem C141_one_peak_from_its_cluster :
  sound_tools ->
  forall (s : pe) v add x1 y1 e1, remaining T s = (x1, y1, e1) -> DataClustersSpec.increasing x1 -> length y1 = length x1 -> 0 <= pe_cres s ->
    (exists a b, In a x1 /\ In b x1 /\ a <= v <= b) ->
    exists i lo hi, first_from x1 v i /\ is_cluster s x1 y1 (Z.of_nat lo) (Z.of_nat hi) /\ (lo <= i <= hi)%nat /\ (hi < length x1)%nat /\
      let part l := slice l lo (S hi) in
      match peaks_in T s (part x1) (part y1) (part e1) with
      | Err x => estimate_peak T s v add = Some (s, Err x)
      | Ok [] => estimate_peak T s v add = Some (s, Ok None)
      | Ok [p] => exists s', estimate_peak T s v add = Some (s', Ok (Some p)) /\ (add = false -> s' = s) /\ (add = true -> added s p s')
      | Ok _ => False
      end.
Proof.
  intros ST s v add x1 y1 e1 E IX LY RC (a & b & Ha & Hb & Lv).
  destruct x1 as [|x0 x]; [destruct Ha|].
  assert (Hx0 : x0 <= v).
  { apply In_nth_error in Ha. destruct Ha as [[|j] Hj]; [cbn in Hj; injection Hj as <-; lia|].
    pose proof (IX 0%nat (S j) x0 a ltac:(lia) eq_refl Hj). lia. }
  destruct (near_ok s (x0 :: x) y1 v ST IX LY RC (ex_intro _ x0 (conj eq_refl Hx0)) (ex_intro _ b (conj Hb (proj2 Lv))))
    as (i & lo & hi & F & IC & B1 & B2 & PN).
  exists i, (Z.to_nat lo), (Z.to_nat hi). split; [exact F|]. rewrite !Z2Nat.id by lia. split; [exact IC|]. split; [lia|]. split; [lia|].
  assert (Vl : v <= last (x0 :: x) x0).
  { pose proof (last_nth (x0 :: x) x0 ltac:(discriminate)) as LN. apply In_nth_error in Hb. destruct Hb as [j Hj].
    assert (Bj : (j < length (x0 :: x))%nat) by (apply nth_error_Some; congruence).
    destruct (Nat.eq_dec j (length (x0 :: x) - 1)) as [->|Nj]; [assert (last (x0 :: x) x0 = b) by congruence; lia|].
    pose proof (IX j (length (x0 :: x) - 1)%nat _ _ ltac:(lia) Hj LN). lia. }
  assert (EE : estimate_peak T s v add =
    match peaks_in T s (slice (x0 :: x) (Z.to_nat lo) (S (Z.to_nat hi))) (slice y1 (Z.to_nat lo) (S (Z.to_nat hi))) (slice e1 (Z.to_nat lo) (S (Z.to_nat hi))) with
      | Err e => Some (s, Err e)
      | Ok [] => Some (s, Ok None)
      | Ok (p :: ps) =>
        if add then match add_peaks T s (p :: ps) with (s', Ok _) => Some (s', Ok (Some p)) | (s', Err e) => Some (s', Err e) end
        else Some (s, Ok (Some p))
      end).
  { unfold estimate_peak. rewrite E. destruct (Z.ltb_spec v x0); [lia|]. destruct (Z.ltb_spec (last (x0 :: x) x0) v); [lia|].
    cbn [orb]. rewrite PN. replace (Z.to_nat (hi + 1)) with (S (Z.to_nat hi)) by lia. reflexivity. }
  rewrite EE. cbv zeta.
  destruct (peaks_in T s _ _ _) as [[|p [|q l]]|x2] eqn:PI; [reflexivity| |pose proof (at_most_one _ _ _ _ _ ST PI) as L; cbn in L; lia|reflexivity].
  destruct add; [|exists s; split; [reflexivity|]; split; [reflexivity|discriminate]].
  destruct (add_one s p) as (s' & -> & AD); [apply ST|]. exists s'. split; [reflexivity|]. split; [discriminate|auto].
Qed.

(** Where nothing rises to its uncertainty no peak is estimated and nothing changes; and
    a peak found is the estimate for these points or what the optimiser made of it. *)
Theorem C141_quiet_gives_none :
  sound_tools ->
  forall (s : pe) x y e, length y = length x -> length e = length x -> x <> [] ->
    (forall i yi ei, nth_error y i = Some yi -> nth_error e i = Some ei -> w_rnd w yi < ei) ->
    peaks_in T s x y e = Ok [].
Proof.
  intros (FR & _) s x y e LY LE NE Q0.
  assert (RO : forall a, w_rnd w a < 0 <-> a < 0).
  { intros a. destruct FR as [M Z0]. pose proof (proj2 (Z0 0) eq_refl) as R0. split; intros H.
    - destruct (Z.lt_ge_cases a 0) as [|G]; [assumption|]. specialize (M _ _ G). lia.
    - pose proof (M a 0 ltac:(lia)). pose proof (Z0 a). lia. }
  unfold peaks_in. set (r := make_cluster _ _ _ _ _ _ _ _ _).
  assert (R : exists c, r = Ok c /\ c_never c = true /\ c_model c = []).
  { subst r. unfold make_cluster, change_slice_from. cbn [c_model c_base c_r c_y c_e c_never c_last c_em c_pf adat].
    set (c0 := mkC [] None (mkArr 0 x) (mkArr 1 y) (mkArr 2 e) 0 0 false 0 (pe_em s) (pe_pf s) : cluster).
    destruct (all_below_spec w c0 0 (length x) RO) as (b & Eb & Ib).
    - split; [exact LY|]. split; [exact LE|]. cbn. now rewrite map_length.
    - cbn. destruct x; [congruence|cbn; lia].
    - cbn [c0 c_base c_r c_y c_e adat] in Eb. rewrite Eb. eexists. split; [reflexivity|]. split; [|reflexivity]. cbn [c_never].
      apply Ib. intros i Hi (yi & bl & ei & Hy & Hbl & He & L). cbn [c0 c_base c_r c_y c_e adat valuebl] in *.
      rewrite nth_error_map in Hbl. destruct (nth_error x i); [|discriminate]. cbn in Hbl. injection Hbl as <-.
      rewrite Z.sub_0_r in L. specialize (Q0 i yi ei Hy He). lia. }
  destruct R as (c & -> & NV & M). cbn [bind]. unfold fit. rewrite NV. cbn [fr_out fr_c bind]. now rewrite M.
Qed.

Theorem C141_where_the_peak_comes_from :
  sound_tools ->
  forall (s : pe) x y e p, peaks_in T s x y e = Ok [p] ->
    exists c p0 c2, c_model c = [] /\ c_base c = None /\ r_cluster c = x /\ y_cluster c = slice y 0 (length x) /\ e_cluster c = slice e 0 (length x) /\
      w_estimate w c = Ok (Some p0) /\ c2 = set_last (set_model c [p0]) (length x) /\
      (p = p0 \/
       (exists ob n, w_engine w [p0] None c2 0 = (([p], ob), Ok tt) /\ cleanfit w [p] x (slice e 0 (length x)) = Ok ([p], n) /\
          w_qlt w (w_quality w (set_model c2 [p])) (w_quality w (set_model c [p0])) = false)).
Proof.
  intros (_ & _ & AS & EN) s x y e p. unfold peaks_in.
  assert (S1 : forall p : P, sort_peaks w [p] = [p]) by (intros q; apply Permutation_length_1_inv; symmetry; apply (sort_perm w AS)).
  destruct (make_cluster _ _ _ _ _ _ _ _ _) as [c|] eqn:MK; [|discriminate]. cbn [bind].
  assert (C : c_model c = [] /\ c_base c = None /\ r_cluster c = x /\ y_cluster c = slice y 0 (length x) /\ e_cluster c = slice e 0 (length x)).
  { unfold make_cluster, change_slice_from in MK. cbn [adat] in MK. destruct (all_below _ _ _ _ _); [|discriminate]. injection MK as <-.
    unfold r_cluster, y_cluster, e_cluster. cbn [c_model c_base c_r c_y c_e c_start c_stop adat]. repeat (split; [reflexivity|]).
    split; [|auto]. unfold slice. cbn [skipn]. rewrite Nat.sub_0_r. apply firstn_all. }
  clear MK. destruct C as (M & BN & RX & RY & RE).
  unfold fit. destruct (c_never c); [cbn [fr_out fr_c bind]; rewrite M; discriminate|]. rewrite M.
  destruct (estimatepeak w c) as [c1 o] eqn:EP.
  destruct (estimate_frame w c c1 o EP M) as (_ & _ & _ & F).
  assert (SIZE : forall m, c_size (set_model c m) = length x) by (intros m; unfold c_size; rewrite <- RX; reflexivity).
  destruct F as [->|(p0 & EST & -> & ->)].
  - intros H. exfalso. destruct o as [bo|x0]; [|destruct x0; cbn [fr_out fr_c bind] in H; rewrite ?M in H; discriminate].
    cbn [andb] in H. change (c_model (set_last c (c_size c))) with (c_model c) in H. rewrite M in H.
    destruct (w_engine w [] None _ 0) as [[ps ob] out] eqn:EG. pose proof (EN _ _ _ _ _ _ _ EG) as LP. destruct ps; [|discriminate].
    destruct out as [[]|x0]; [|destruct x0; cbn [fr_out fr_c bind set_last c_model] in H; rewrite ?M in H; discriminate].
    rewrite (sort_nil w AS) in H. destruct (cleanfit _ _ _ _) as [[ps2 n]|] eqn:CF; [|discriminate].
    pose proof (cleanfit_len _ _ _ _ _ CF) as LC. destruct ps2; [|cbn in LC; lia].
    destruct (w_qlt _ _ _); cbn [fr_out fr_c bind set_base set_model set_last c_model] in H; rewrite ?M in H; discriminate.
  - rewrite S1. cbn [andb]. rewrite SIZE. set (c2 := set_last (set_model c [p0]) (length x)).
    intros H. exists c, p0, c2. repeat (split; [assumption||reflexivity|]).
    change (c_model c2) with [p0] in H. destruct (w_engine w [p0] None c2 0) as [[ps ob] out] eqn:EG. pose proof (EN _ _ _ _ _ _ _ EG) as LP.
    destruct ps as [|p1 [|]]; try discriminate. clear LP.
    destruct out as [[]|x0]; [|destruct x0; cbn [fr_out fr_c bind] in H; try discriminate; left; injection H as ->; reflexivity].
    rewrite S1 in H. change (r_cluster c2) with (r_cluster c) in H. change (e_cluster c2) with (e_cluster c) in H. rewrite RX, RE in H.
    destruct (cleanfit w [p1] x _) as [[ps2 n]|] eqn:CF; [|discriminate].
    destruct (w_qlt _ _ _) eqn:QL; cbn [fr_out fr_c bind] in H.
    + left. injection H as ->. reflexivity.
    + right. cbn [set_base set_model c_model] in H. injection H as ->.
      pose proof (cleanfit_len _ _ _ _ _ CF) as LC.
      assert (p1 = p) as ->.
      { unfold cleanfit in CF. destruct (removed_indices _ _ _ _) as [rm|]; [|discriminate]. cbn [bind] in CF. injection CF as CF _.
        revert CF. generalize (rev rm). intros l. assert (G : forall l (m : list P), incl (fold_left del_at l m) m).
        { clear. induction l as [|i l IH]; intros m; [apply incl_refl|]. cbn [fold_left]. eapply incl_tran; [apply IH|].
          unfold del_at. intros q Hq. apply in_app_or in Hq. destruct Hq as [Hq|Hq]; [rewrite <- (firstn_skipn i m); apply in_or_app; left; exact Hq|rewrite <- (firstn_skipn (S i) m); apply in_or_app; right; exact Hq]. }
        intros CF. specialize (G l [p1] p). rewrite CF in G. destruct (G (or_introl eq_refl)) as [->|[]]. reflexivity. }
      exists ob, n. split; [reflexivity|]. split; [exact CF|]. exact QL.
Qed.

(** ** C143 *)
(** In exact arithmetic: once a peak has been added, the next estimate works on what is
    left of the data after that peak too, on the same points with the same uncertainties. *)
Section Exact.
Hypothesis RX : forall a, w_rnd w a = a.
Lemma vadd_swap acc : forall a b, vadd w (vadd w acc a) b = vadd w (vadd w acc b) a.
Proof.
  unfold vadd. induction acc as [|c acc IH]; intros [|a l] [|b l']; try reflexivity. cbn [combine map fst snd]. rewrite !RX. f_equal; [lia|apply IH].
Qed.
Lemma vsum_perm r m m' : Permutation m m' -> vsum w r m = vsum w r m'.
Proof.
  unfold vsum. generalize (map (fun _ : Z => 0) r). intros acc H. revert acc.
  induction H as [|p l l' H IH|p q l|l1 l2 l3 H1 IH1 H2 IH2]; intros acc; cbn [fold_left]; auto; [|now rewrite IH1].
  now rewrite vadd_swap.
Qed.
Lemma vsum_cons r p m : vsum w r (p :: m) = vadd w (vsum w r m) (w_pvalue w p r).
Proof.
  unfold vsum. cbn [fold_left]. generalize (map (fun _ : Z => 0) r). induction m as [|q m IH]; intros acc; [reflexivity|].
  cbn [fold_left]. rewrite vadd_swap. apply IH.
Qed.
Lemma vsub_add y : forall b u v, vsub w y (vadd w b (vadd w u v)) = vsub w (vsub w y (vadd w b u)) v.
Proof.
  unfold vsub, vadd. induction y as [|a y IH]; intros [|b lb] [|u lu] [|v lv]; try reflexivity. cbn [combine map fst snd]. rewrite !RX. f_equal; [lia|apply IH].
Qed.
Lemma vsub_add2 y : forall u v, vsub w y (vadd w u v) = vsub w (vsub w y u) v.
Proof.
  unfold vsub, vadd. induction y as [|a y IH]; intros [|u lu] [|v lv]; try reflexivity. cbn [combine map fst snd]. rewrite !RX. f_equal; [lia|apply IH].
Qed.
End Exact.

Theorem C143_added_peaks_are_taken_into_account :
  (forall a, w_rnd w a = a) ->
  forall (s s' : pe) p x1 y1 e1, added s p s' -> remaining T s = (x1, y1, e1) ->
    remaining T s' = (x1, vsub w y1 (w_pvalue w p x1), e1).
Proof.
  intros RX s s' p x1 y1 e1 (E1 & E2 & E3 & E4 & E5 & E6 & _ & _ & _ & AD) RE. unfold remaining in *.
  destruct (pe_extracted s) as [c|].
  - destruct AD as (_ & m & -> & PM & _). injection RE as <- <- <-. f_equal. f_equal.
    change (y_cluster (set_model c m)) with (y_cluster c). unfold cluster_value.
    change (r_cluster (set_model c m)) with (r_cluster c). cbn [set_model c_base c_model].
    rewrite (vsum_perm RX _ _ _ PM), (vsum_cons RX). apply (vsub_add RX).
  - destruct AD as (-> & PM & _). injection RE as <- <- <-. rewrite E1, E2, E3, E4, E5, E6. f_equal. f_equal.
    rewrite (vsum_perm RX _ _ _ PM), (vsum_cons RX). apply (vsub_add2 RX).
Qed.
End Props.
Print Assumptions C141_out_of_range.
Print Assumptions C141_one_peak_from_its_cluster.
Print Assumptions C141_quiet_gives_none.
Print Assumptions C141_where_the_peak_comes_from.
Print Assumptions C143_added_peaks_are_taken_into_account.

(** ** Examples *)
Definition qx : list Z := [0; 1; 2; 10; 11; 12].
Definition qy : list Z := [3; 40; 5; 6; 90; 7].
Definition qpe : pe xpeak Z := mkPE qx qy [1; 1; 1; 1; 1; 1] 0 6 2 [xp 11 8 true] None 1 0 [7%nat].
Definition qshow (r : option (pe xpeak Z * result (option xpeak))) :=
  match r with Some (s, o) => Some (pe_init s, match pe_extracted s with Some c => Some (c_model c) | None => None end, o) | None => None end.

Lemma vsound : sound_tools vtools.
Proof.
  split; [split; intros; cbn [w_rnd t_w vtools vworld]; lia|]. split; [exact DataClustersExamples.isort_ok|]. split; [exact isort_ok|].
  intros m b c n ps ob out E. injection E as <- <- <-. reflexivity.
Qed.
Lemma qx_inc : DataClustersSpec.increasing qx.
Proof. apply DataClustersExamples.incb_increasing. reflexivity. Qed.

Example C141_nonvacuous :
  sound_tools vtools /\ DataClustersSpec.increasing qx /\
  remaining vtools qpe = (qx, [1; 38; 3; 4; 80; 5], [1; 1; 1; 1; 1; 1]) /\
  qshow (estimate_peak vtools qpe 1 true) = Some ([xp 1 19 true; xp 11 8 true], None, Ok (Some (xp 1 19 true))) /\
  qshow (estimate_peak vtools qpe 1 false) = Some ([xp 11 8 true], None, Ok (Some (xp 1 19 true))) /\
  qshow (estimate_peak vtools qpe 13 true) = Some ([xp 11 8 true], None, Err ValueError) /\
  (* a quiet cluster *)
  qshow (estimate_peak vtools (mkPE qx qy [50; 50; 50; 1; 1; 1] 0 6 2 [] None 1 0 [7%nat]) 1 true) = Some ([], None, Ok None).
Proof. split; [exact vsound|]. split; [exact qx_inc|]. vm_compute. auto 10. Qed.

(** ** C142: the estimate is not always made near x *)
(** Expected: the cluster nearest to the given coordinate is used.  At 3, a unit away from
    the cluster 0..2 and seven units away from the cluster 10..12, the far one is. *)
Theorem C142_far_cluster_used_refuted :
  exists (s : pe xpeak Z) v p, sound_tools vtools /\ remaining vtools s = (qx, [1; 38; 3; 4; 80; 5], [1; 1; 1; 1; 1; 1]) /\
    is_cluster vtools s qx [1; 38; 3; 4; 80; 5] 0 2 /\ is_cluster vtools s qx [1; 38; 3; 4; 80; 5] 3 5 /\
    v = 3 /\ Z.abs (v - 2) < Z.abs (v - 10) /\
    estimate_peak vtools s v false = Some (s, Ok (Some p)) /\ w_position vworld p = Some 11.
Proof.
  assert (IC : forall lo hi, In (lo, hi) [(0, 2); (3, 5)] -> is_cluster vtools qpe qx [1; 38; 3; 4; 80; 5] lo hi).
  { intros lo hi H. unfold is_cluster. eexists _, _, _. split; [vm_compute; reflexivity|]. split; [vm_compute; reflexivity|]. split; [reflexivity|exact H]. }
  exists qpe, 3, (xp 11 40 true). split; [exact vsound|]. split; [vm_compute; reflexivity|]. split; [apply IC; cbn; auto|].
  split; [apply IC; cbn; auto|]. split; [reflexivity|]. split; [lia|]. split; [vm_compute; reflexivity|reflexivity].
Qed.
Print Assumptions C142_far_cluster_used_refuted.

Example C143_nonvacuous :
  exists s', added vtools qpe (xp 1 19 true) s' /\ estimate_peak vtools qpe 1 true = Some (s', Ok (Some (xp 1 19 true))) /\
    remaining vtools s' = (qx, [1; 19; 3; 4; 80; 5], [1; 1; 1; 1; 1; 1]).
Proof.
  eexists (mkPE qx qy [1; 1; 1; 1; 1; 1] 0 6 2 [xp 1 19 true; xp 11 8 true] None 1 0 [7%nat]). split; [|split; vm_compute; reflexivity].
  repeat (split; [reflexivity|]).
  repeat constructor.
Qed.

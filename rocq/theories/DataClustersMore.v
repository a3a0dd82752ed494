(** Reachability, termination, reset, zero resolution, queries. *)
From Coq Require Import Sorted.
From Verif Require Import DataClustersSpec DataClustersProofs DataClustersAdj.
Open Scope Z_scope.

Lemma covered_nonempty cs i : covered cs i -> cs <> [].
Proof. intros (lo & hi & Hin & _) ->. destruct Hin. Qed.

Lemma uncovered_gap rnd x n cs c t : faithful rnd -> increasing x -> n = Z.of_nat (length x) ->
  well_formed n cs -> 0 <= t < n -> ~ covered cs t -> In c cs -> 0 < gap rnd x c t.
Proof.
  intros Hr Hx Hn W Ht Hu Hin. destruct c as [lo hi].
  assert (Hn2 := In_nth_error _ _ Hin). destruct Hn2 as [k Hk]. destruct W as [W1 _].
  pose proof (W1 _ _ _ Hk).
  destruct (Z.lt_ge_cases t lo).
  - rewrite gap_left by lia. pose proof (at_lt x t lo Hx). 
    pose proof (rnd_neg rnd Hr (at_ x t - at_ x lo)). lia.
  - destruct (Z.lt_ge_cases hi t).
    + rewrite gap_right by lia. pose proof (at_lt x hi t Hx).
      pose proof (rnd_pos rnd Hr (at_ x t - at_ x hi)). lia.
    + exfalso. apply Hu. exists lo, hi. split; [exact Hin|lia].
Qed.

Section S.
Variable rnd : Z -> Z.
Hypothesis Hrnd : faithful rnd.
Variable argsort : list Z -> list Z.
Hypothesis Hsort : argsort_ok argsort.
Variables (x y : list Z) (r : Z).
Hypothesis Hx : increasing x.
Hypothesis Hne : x <> [].

Notation Inv := (Inv argsort x y r).
Notation ord := (ord argsort y).

Lemma xlen : (0 < length x)%nat. Proof. destruct x; [congruence|cbn; lia]. Qed.

Lemma argsort_last : (0 < length y)%nat -> pyget (argsort y) (-1) = Ok (ord (length y - 1)).
Proof.
  intros H. pose proof (argsort_length argsort Hsort y) as L.
  destruct (last_case _ (argsort y)) as [E|(l & a & E)]; [rewrite E in L; cbn in L; lia|].
  unfold DataClustersProofs.ord. rewrite E, pyget_last. rewrite <- L, E, app_length; cbn [length].
  rewrite app_nth2 by lia. replace (length l + 1 - 1 - length l)%nat with 0%nat by lia. reflexivity.
Qed.

Lemma wf_single n i : 0 <= i < n -> well_formed n [(i, i)].
Proof. intros H. apply chain_wf. cbn. lia. Qed.

Lemma cov_single i : covered [(i, i)] i.
Proof. exists i, i. split; [now left|lia]. Qed.

Lemma construct_ok s : construct argsort x y r = Ok s ->
  length x = length y /\ 0 <= r /\
  s = mkdc x y (argsort y) [(ord (length y - 1), ord (length y - 1))] r (length x - 1)
           None (Some (ord (length y - 1))) READY.
Proof.
  unfold construct. pose proof xlen.
  destruct (Nat.eqb_spec (length x) (length y)) as [E|]; cbn [negb]; [|discriminate].
  destruct (Z.ltb_spec r 0); [discriminate|].
  destruct (Nat.eqb_spec (length x) 0); [lia|].
  rewrite argsort_last by lia. cbn [bind]. intros H1; injection H1 as <-.
  rewrite (argsort_length argsort Hsort y), E. auto.
Qed.

Lemma construct_inv s : construct argsort x y r = Ok s -> Inv s.
Proof.
  intros H. destruct (construct_ok s H) as (E & Hr & ->). pose proof xlen.
  constructor; cbn; auto; try lia; try discriminate.
  - apply wf_single. rewrite E. apply (ord_range argsort Hsort); lia.
  - intros j Hj. replace j with (length y - 1)%nat by lia. apply cov_single.
Qed.

Lemma reset_ok s : Inv s -> exists s', reset_clusters s = (s', Ok tt) /\ Inv s' /\
  s' = mkdc x y (argsort y) [(ord (length y - 1), ord (length y - 1))] r (length x - 1)
            (Some 0%nat) (Some (ord (length y - 1))) READY.
Proof.
  intros I. pose proof xlen. pose proof (I_len _ _ _ _ _ I) as E.
  unfold reset_clusters. rewrite (I_ord _ _ _ _ _ I), argsort_last by lia.
  eexists. split; [reflexivity|].
  rewrite (I_x _ _ _ _ _ I), (I_y _ _ _ _ _ I), (I_res _ _ _ _ _ I), (argsort_length argsort Hsort y), <- E.
  replace (match st s with INIT => INIT | _ => READY end) with READY
    by (pose proof (I_st _ _ _ _ _ I); destruct (st s); congruence).
  split; [|reflexivity].
  constructor; cbn; auto; try lia; try discriminate.
  - apply (I_r _ _ _ _ _ I).
  - apply wf_single. rewrite E. apply (ord_range argsort Hsort); lia.
  - intros j Hj. replace j with (length x - 1)%nat by lia. apply cov_single.
Qed.

Lemma combine_inv s g s' : Inv s -> increasing_groups g -> combine_clusters s g = (s', Ok tt) -> Inv s'.
Proof.
  intros I Hg H. destruct (combine_ok _ _ _ _ (I_wf _ _ _ _ _ I) Hg H).
  destruct I. constructor; try congruence.
  - destruct (clusters s) as [|[lo hi] cs] eqn:E; [congruence|].
    apply (covered_nonempty _ lo). apply CF_cov. exists lo, hi. split; [now left|].
    destruct I_wf as [W1 _]. pose proof (W1 0%nat lo hi eq_refl). lia.
  - intros j Hj. apply CF_cov. apply I_cov. lia.
  - intros Hd. rewrite CF_c. apply I_done. congruence.
Qed.

Lemma reach_inv s : reach rnd argsort x y r s -> Inv s.
Proof.
  induction 1 as [s H|s H IH|s H IH|s g s' H IH Hg Hc].
  - apply construct_inv; exact H.
  - apply next_inv; auto.
  - destruct (reset_ok s IH) as (s' & -> & I & _). exact I.
  - eapply combine_inv; eauto.
Qed.

Lemma inv_done_covered s : Inv s -> st s = DONE -> forall i, 0 <= i < Z.of_nat (length x) -> covered (clusters s) i.
Proof.
  intros I HD i Hi. pose proof (I_len _ _ _ _ _ I) as E. rewrite E in Hi.
  destruct (ord_surj argsort Hsort y i Hi) as (j & Hj & <-).
  apply (I_cov _ _ _ _ _ I). rewrite (I_done _ _ _ _ _ I HD). lia.
Qed.

Lemma next_done s : st s = DONE -> next rnd s = (s, Err StopIteration).
Proof. intros H. unfold next. rewrite H. reflexivity. Qed.

Lemma makeclusters_ok : forall fuel s, Inv s -> (cur s < fuel)%nat ->
  exists s' k, makeclusters rnd fuel s = Some (s', k, Ok tt) /\ (k <= cur s)%nat /\
    Inv s' /\ st s' = DONE.
Proof.
  induction fuel as [|f IH]; intros s I Hf; [lia|]. cbn [makeclusters].
  assert (HD : st s = DONE \/ st s <> DONE) by (destruct (st s); auto; right; discriminate).
  destruct HD as [HD|HD].
  - rewrite next_done by exact HD. exists s, 0%nat. conj; auto; lia.
  - pose proof (next_inv rnd Hrnd argsort Hsort x y r Hx s I) as I'.
    destruct (next_cases rnd Hrnd argsort Hsort x y r Hx s I HD) as
      [(s' & E & SD & Ecs & Est & Ec & _)|(s' & c' & k & E & SD & Hc & Ec & _)];
      rewrite E in *; cbn [fst] in I'.
    + exists s', 0%nat. conj; auto; lia.
    + destruct (IH s' I' ltac:(lia)) as (s2 & k2 & E2 & Hk & I2 & D2). rewrite E2.
      exists s2, (S k2). conj; auto; lia.
Qed.

(** Zero resolution. *)
Definition singles (cs : list (Z * Z)) : Prop := forall lo hi, In (lo, hi) cs -> lo = hi.

Lemma next_singles s s' : Inv s -> r = 0 -> st s <> DONE -> singles (clusters s) ->
  next rnd s = (s', Ok tt) -> singles (clusters s') /\ length (clusters s') = S (length (clusters s)).
Proof.
  intros I Hr HD Hs E. 
  destruct (next_cases rnd Hrnd argsort Hsort x y r Hx s I HD) as
      [(s2 & E2 & _)|(s2 & c' & k & E2 & SD & Hc & Ec & _ & _ & _ & Hu & _ & _ & Hstep)]; [congruence|].
  rewrite E in E2. injection E2 as <-.
  destruct Hstep as [(pre & post & A & B & _)|(pre & post & lo & hi & A & B & _ & D & _)].
  - rewrite B, A. split.
    + intros lo hi Hin. apply in_app_or in Hin. destruct Hin as [Hin|[Q|Hin]].
      * apply Hs. rewrite A. apply in_or_app; now left.
      * congruence.
      * apply Hs. rewrite A. apply in_or_app; now right.
    + rewrite !app_length; cbn [length]; lia.
  - exfalso. pose proof (I_len _ _ _ _ _ I). pose proof (I_cur _ _ _ _ _ I).
    assert (0 < gap rnd x (lo, hi) (ord c')); [|lia].
    eapply uncovered_gap; eauto.
    + apply (I_wf _ _ _ _ _ I).
    + rewrite H. apply (ord_range argsort Hsort). lia.
    + rewrite A. apply in_or_app; right; now left.
Qed.

Lemma makeclusters_singles : r = 0 -> forall fuel s s' k, Inv s -> singles (clusters s) ->
  makeclusters rnd fuel s = Some (s', k, Ok tt) ->
  singles (clusters s') /\ length (clusters s') = (k + length (clusters s))%nat.
Proof.
  intros Hr. induction fuel as [|f IH]; intros s s' k I Hs H; [discriminate|]. cbn [makeclusters] in H.
  assert (HD : st s = DONE \/ st s <> DONE) by (destruct (st s); auto; right; discriminate).
  destruct HD as [HD|HD].
  - rewrite next_done in H by exact HD. injection H as <- <-. auto.
  - pose proof (next_inv rnd Hrnd argsort Hsort x y r Hx s I) as I'.
    destruct (next rnd s) as [s1 [[]|e]] eqn:E; cbn [fst] in I'.
    + destruct (next_singles s s1 I Hr HD Hs E) as [S1 L1].
      destruct (makeclusters rnd f s1) as [[[s2 k2] r2]|] eqn:E2; [|discriminate].
      injection H as <- <- ->. destruct (IH _ _ _ I' S1 E2). split; [assumption|lia].
    + destruct (next_cases rnd Hrnd argsort Hsort x y r Hx s I HD) as
      [(s2 & E2 & SD & Ecs & _)|(s2 & c' & k0 & E2 & _)]; [|congruence].
      rewrite E in E2. injection E2 as <- ->. injection H as <- <-. rewrite Ecs. auto.
Qed.

Lemma singles_all n : forall cs a p, p + 1 = Z.of_nat a -> chain p n cs -> singles cs ->
  (forall i, p < i < n -> covered cs i) ->
  cs = map (fun i => (Z.of_nat i, Z.of_nat i)) (seq a (Z.to_nat n - a)).
Proof.
  induction cs as [|[lo hi] cs IH]; intros a p Hp Hch Hs Hcov.
  - replace (Z.to_nat n - a)%nat with 0%nat; [reflexivity|].
    destruct (Z.lt_ge_cases (p + 1) n); [|lia].
    destruct (Hcov (p + 1) ltac:(lia)) as (? & ? & [] & _).
  - cbn in Hch. destruct Hch as (C1 & C2 & C3 & C4).
    pose proof (Hs lo hi ltac:(now left)). subst hi.
    assert (lo = p + 1).
    { destruct (Hcov (p + 1) ltac:(lia)) as (l & h & [E|Hin] & Hl).
      - injection E as <- <-. lia.
      - pose proof (chain_lb _ _ _ C4 _ _ Hin). lia. }
    subst lo. replace (Z.to_nat n - a)%nat with (S (Z.to_nat n - S a)) by lia.
    cbn [seq map]. f_equal; [f_equal; lia|].
    apply (IH (S a) (p + 1)); auto; try lia.
    + intros l h Hin. apply Hs. now right.
    + intros i Hi. destruct (Hcov i ltac:(lia)) as (l & h & [E|Hin] & Hl).
      * injection E as <- <-. lia.
      * exists l, h. auto.
Qed.

(** Reset and fresh objects give the same run. *)
Definition same_but_lastc (a b : dc) : Prop :=
  xs a = xs b /\ ys a = ys b /\ order a = order b /\ clusters a = clusters b /\
  res a = res b /\ cur a = cur b /\ lastp a = lastp b /\ st a = st b.

Lemma find_congr a b i : same_but_lastc a b -> find_nearest_cluster rnd a i = find_nearest_cluster rnd b i.
Proof.
  intros (E1 & E2 & E3 & E4 & E5 & E6 & E7 & E8). unfold find_nearest_cluster.
  rewrite E1, E4, E8. reflexivity.
Qed.

Lemma scan_congr a b : same_but_lastc a b -> forall c t nr, scan rnd a c t nr = scan rnd b c t nr.
Proof.
  intros H. induction c as [|c IH]; intros t nr; cbn [scan]; [reflexivity|].
  destruct (snd nr =? 0); [|reflexivity].
  assert (E3 : order a = order b) by apply H. rewrite E3.
  destruct (pyget (order b) (Z.of_nat c)) as [ti|]; cbn [bind]; [|reflexivity].
  rewrite (find_congr a b ti H). destruct (find_nearest_cluster rnd b ti) as [[nr'|]|]; cbn [bind]; auto.
Qed.

Ltac fin := solve [ split; [assumption || (repeat split; reflexivity)
  | split; [reflexivity | first [left; reflexivity | right; split; [discriminate | split; reflexivity]]]]].

Lemma next_congr a b : same_but_lastc a b ->
  same_but_lastc (fst (next rnd a)) (fst (next rnd b)) /\
  snd (next rnd a) = snd (next rnd b) /\
  (lastc (fst (next rnd a)) = lastc (fst (next rnd b)) \/
   snd (next rnd a) <> Ok tt /\ lastc (fst (next rnd a)) = lastc a /\ lastc (fst (next rnd b)) = lastc b).
Proof.
  intros H. pose proof H as H0.
  destruct H as (E1 & E2 & E3 & E4 & E5 & E6 & E7 & E8).
  unfold next. rewrite E8, E1, E2, E3, E4, E5, E6, E7.
  rewrite (scan_congr _ (mkdc (xs b) (ys b) (order b) (clusters b) (res b) (cur b) (lastc b) (lastp b) CLUSTERING))
    by (repeat split; reflexivity).
  destruct (scan rnd _ (cur b) None (0%nat, 0)) as [[[c' t] [nc d]]|e];
  destruct (st b); cbn [fst snd]; try fin.
  all: destruct ((c' =? 0)%nat && (d =? 0)); cbn [fst snd]; try fin.
  all: destruct t; cbn [fst snd]; try fin.
  all: destruct (Z.abs d <=? res b); cbn [fst snd]; try fin.
  all: destruct (nth_error (clusters b) nc) as [[lo hi]|]; cbn [fst snd]; fin.
Qed.
End S.

Fixpoint iter_next (rnd : Z -> Z) (k : nat) (s : dc) : dc :=
  match k with O => s | S j => iter_next rnd j (fst (next rnd s)) end.

Lemma iter_congr rnd : forall k a b, same_but_lastc a b ->
  same_but_lastc (iter_next rnd k a) (iter_next rnd k b) /\
  snd (next rnd (iter_next rnd k a)) = snd (next rnd (iter_next rnd k b)).
Proof.
  induction k as [|k IH]; intros a b H; cbn [iter_next].
  - split; [exact H|]. apply next_congr; exact H.
  - apply IH. apply next_congr; exact H.
Qed.

(** cluster_is_full *)
Lemma full_ok n s k lo hi : well_formed n (clusters s) -> n = Z.of_nat (length (order s)) ->
  nth_error (clusters s) k = Some (lo, hi) ->
  exists b, cluster_is_full s k = Ok b /\
   (b = true <-> forall i, (i = lo - 1 \/ i = hi + 1) -> 0 <= i < n -> covered (clusters s) i).
Proof.
  intros W Hn Hk. unfold cluster_is_full. rewrite Hk. eexists. split; [reflexivity|].
  pose proof W as W0. destruct W0 as [W1 W2]. pose proof (W1 _ _ _ Hk) as Hb.
  rewrite andb_true_iff, !Z.eqb_eq. split.
  - intros [H1 H2] i [->| ->] Hi.
    + destruct k as [|k']; [lia|].
      destruct (nth_error (clusters s) k') as [[l h]|] eqn:E; [|apply nth_error_None in E].
      * exists l, h. split; [eapply nth_error_In; eauto|]. pose proof (W1 _ _ _ E). lia.
      * assert (S k' < length (clusters s))%nat by (apply nth_error_Some; congruence). lia.
    + destruct (nth_error (clusters s) (S k)) as [[l h]|] eqn:E; [|lia].
      exists l, h. split; [eapply nth_error_In; eauto|]. pose proof (W1 _ _ _ E). lia.
  - intros H. split.
    + destruct k as [|k'].
      * destruct (Z.eq_dec lo 0); [assumption|exfalso].
        destruct (H (lo - 1) ltac:(now left) ltac:(lia)) as (l & h & Hin & Hl).
        apply In_nth_error in Hin. destruct Hin as [j Hj].
        destruct j as [|j]; [rewrite Hk in Hj; injection Hj as <- <-; lia|].
        pose proof (W2 0%nat (S j) _ _ _ _ ltac:(lia) Hk Hj). lia.
      * destruct (nth_error (clusters s) k') as [[l0 h0]|] eqn:E0.
        2:{ apply nth_error_None in E0.
            assert (S k' < length (clusters s))%nat by (apply nth_error_Some; congruence). lia. }
        pose proof (W2 k' (S k') _ _ _ _ ltac:(lia) E0 Hk). pose proof (W1 _ _ _ E0).
        destruct (H (lo - 1) ltac:(now left) ltac:(lia)) as (l & h & Hin & Hl).
        apply In_nth_error in Hin. destruct Hin as [j Hj].
        destruct (Nat.lt_trichotomy j k') as [L|[->|L]].
        -- pose proof (W2 j k' _ _ _ _ L Hj E0). lia.
        -- rewrite E0 in Hj. injection Hj as <- <-. lia.
        -- destruct (Nat.eq_dec j (S k')) as [->|]; [rewrite Hk in Hj; injection Hj as <- <-; lia|].
           pose proof (W2 (S k') j _ _ _ _ ltac:(lia) Hk Hj). lia.
    + destruct (nth_error (clusters s) (S k)) as [[l0 h0]|] eqn:E0.
      * pose proof (W2 k (S k) _ _ _ _ ltac:(lia) Hk E0). pose proof (W1 _ _ _ E0).
        destruct (H (hi + 1) ltac:(now right) ltac:(lia)) as (l & h & Hin & Hl).
        apply In_nth_error in Hin. destruct Hin as [j Hj].
        destruct (Nat.lt_trichotomy j (S k)) as [L|[->|L]].
        -- destruct (Nat.eq_dec j k) as [->|]; [rewrite Hk in Hj; injection Hj as <- <-; lia|].
           pose proof (W2 j k _ _ _ _ ltac:(lia) Hj Hk). lia.
        -- rewrite E0 in Hj. injection Hj as <- <-. lia.
        -- pose proof (W2 (S k) j _ _ _ _ ltac:(lia) E0 Hj). lia.
      * apply nth_error_None in E0.
        destruct (Z.eq_dec hi (n - 1)); [lia|exfalso].
        destruct (H (hi + 1) ltac:(now right) ltac:(lia)) as (l & h & Hin & Hl).
        apply In_nth_error in Hin. destruct Hin as [j Hj].
        assert (j < length (clusters s))%nat by (apply nth_error_Some; congruence).
        assert (k < length (clusters s))%nat by (apply nth_error_Some; congruence).
        destruct (Nat.eq_dec j k) as [->|]; [rewrite Hk in Hj; injection Hj as <- <-; lia|].
        pose proof (W2 j k _ _ _ _ ltac:(lia) Hj Hk). lia.
Qed.

(** Coordinate query. *)
Lemma ss_left_pre l v : forall i a, (i < searchsorted_left l v)%nat -> nth_error l i = Some a -> a < v.
Proof.
  induction l as [|b l IH]; intros i a Hi Ha; [cbn in Hi; lia|].
  cbn in Hi. destruct (Z.ltb_spec b v); [|lia].
  destruct i; cbn in Ha; [injection Ha as <-; lia|]. apply (IH i); [lia|exact Ha].
Qed.
Lemma ss_left_at l v a : nth_error l (searchsorted_left l v) = Some a -> v <= a.
Proof.
  induction l as [|b l IH]; cbn; [discriminate|].
  destruct (Z.ltb_spec b v); cbn; [apply IH|]. intros E; injection E as <-. lia.
Qed.
Lemma ss_left_len l v : (searchsorted_left l v <= length l)%nat.
Proof. induction l as [|b l IH]; cbn; [lia|]. destruct (b <? v); cbn; lia. Qed.

Lemma ss_left_all l v : (forall a, In a l -> a < v) -> searchsorted_left l v = length l.
Proof.
  induction l as [|b l IH]; cbn; intros H; [reflexivity|].
  destruct (Z.ltb_spec b v); [f_equal; apply IH; auto|]. specialize (H b ltac:(now left)). lia.
Qed.

Lemma ss_left_unique l v i a : increasing l -> nth_error l i = Some a -> v <= a ->
  (forall j b, (j < i)%nat -> nth_error l j = Some b -> b < v) -> searchsorted_left l v = i.
Proof.
  intros Hx Hi Hv Hlt.
  destruct (Nat.lt_trichotomy (searchsorted_left l v) i) as [L|[E|L]]; [|exact E|].
  - assert (Hin : (i < length l)%nat) by (apply nth_error_Some; congruence).
    destruct (nth_error l (searchsorted_left l v)) as [b|] eqn:E; [|apply nth_error_None in E; lia].
    pose proof (ss_left_at _ _ _ E). pose proof (Hlt _ _ L E). lia.
  - pose proof (ss_left_pre _ _ _ _ L Hi). lia.
Qed.

(** * Assembled statements *)
Section Assembled.
Variables (rnd : Z -> Z) (argsort : list Z -> list Z) (x y : list Z) (r : Z) (s : dc).
Hypothesis (Hrnd : faithful rnd) (Hsort : argsort_ok argsort) (Hx : increasing x) (Hne : x <> []).
Hypothesis Hreach : reach rnd argsort x y r s.
Let n := Z.of_nat (length x).

Lemma A_inv : Inv argsort x y r s.
Proof. eapply reach_inv; eauto. Qed.

Lemma A_progress s' : next rnd s = (s', Ok tt) ->
  exists t k lo hi, lastp s' = Some t /\ 0 <= t < n /\ ~ covered (clusters s) t /\
    (forall i, covered (clusters s) i \/ i = t -> covered (clusters s') i) /\
    (forall u, 0 <= u < n -> ~ covered (clusters s) u -> at_ y u <= at_ y t) /\
    lastc s' = Some k /\ nth_error (clusters s') k = Some (lo, hi) /\ lo <= t <= hi.
Proof.
  intros E. pose proof A_inv as I.
  assert (HD : st s <> DONE).
  { intros HD. rewrite next_done in E by exact HD. discriminate. }
  destruct (next_cases rnd Hrnd argsort Hsort x y r Hx s I HD) as
      [(s2 & E2 & _)|(s2 & c' & k & E2 & SD & Hc & Ec & _ & Lp & Lc & Hu & Hcov & W & Hstep)]; [congruence|].
  rewrite E in E2. injection E2 as <-.
  pose proof (I_len _ _ _ _ _ I) as L. pose proof (I_cur _ _ _ _ _ I) as C.
  exists (ord argsort y c'), k.
  assert (Hn : exists lo hi, nth_error (clusters s') k = Some (lo, hi) /\ lo <= ord argsort y c' <= hi).
  { destruct Hstep as [(pre & post & _ & -> & -> & _)|(pre & post & lo & hi & _ & -> & -> & _)].
    - exists (ord argsort y c'), (ord argsort y c'). rewrite nth_error_app2, Nat.sub_diag by lia. split; [reflexivity|lia].
    - eexists _, _. rewrite nth_error_app2, Nat.sub_diag by lia. split; [reflexivity|lia]. }
  destruct Hn as (lo & hi & Hn1 & Hn2). exists lo, hi.
  conj; auto.
  - apply (ord_range argsort Hsort). lia.
  - unfold n. rewrite L. apply (ord_range argsort Hsort). lia.
  - intros i Hi. eapply step_covered; eauto.
  - intros u Hu1 Hu2. unfold n in Hu1. rewrite L in Hu1.
    destruct (ord_surj argsort Hsort y u Hu1) as (j & Hj & <-).
    apply (ord_mono argsort Hsort). destruct (Nat.le_gt_cases j c'); [lia|].
    exfalso. apply Hu2. apply Hcov. lia.
  - lia.
  - lia.
Qed.

Lemma A_next_raises s' e : next rnd s = (s', Err e) ->
  e = StopIteration /\ clusters s' = clusters s /\ lastp s' = lastp s /\ lastc s' = lastc s /\
  st s' = DONE /\ forall i, 0 <= i < n -> covered (clusters s) i.
Proof.
  intros E. pose proof A_inv as I.
  assert (HD : st s = DONE \/ st s <> DONE) by (destruct (st s); auto; right; discriminate).
  destruct HD as [HD|HD].
  - rewrite next_done in E by exact HD. injection E as <- <-. conj; auto.
    intros i Hi. eapply inv_done_covered; eauto.
  - destruct (next_cases rnd Hrnd argsort Hsort x y r Hx s I HD) as
      [(s2 & E2 & SD & Ecs & Est & Ec & Elc & Elp & Hall)|(s2 & c' & k & E2 & _)]; [|congruence].
    rewrite E in E2. injection E2 as <- ->. conj; auto.
    intros i Hi. unfold n in Hi. rewrite (I_len _ _ _ _ _ I) in Hi.
    destruct (ord_surj argsort Hsort y i Hi) as (j & Hj & <-). apply Hall.
    rewrite (I_len _ _ _ _ _ I). exact Hj.
Qed.

Lemma A_step s' t : next rnd s = (s', Ok tt) -> lastp s' = Some t ->
  (exists pre post, clusters s = pre ++ post /\ clusters s' = pre ++ (t, t) :: post /\
     lastc s' = Some (length pre) /\
     forall c, In c (clusters s) -> r < gap rnd x c t) \/
  (exists pre post lo hi, clusters s = pre ++ (lo, hi) :: post /\
     clusters s' = pre ++ (Z.min lo t, Z.max hi t) :: post /\
     lastc s' = Some (length pre) /\
     gap rnd x (lo, hi) t <= r /\
     forall c, In c (clusters s) -> gap rnd x (lo, hi) t <= gap rnd x c t).
Proof.
  intros E Hp. pose proof A_inv as I.
  assert (HD : st s <> DONE).
  { intros HD. rewrite next_done in E by exact HD. discriminate. }
  destruct (next_cases rnd Hrnd argsort Hsort x y r Hx s I HD) as
      [(s2 & E2 & _)|(s2 & c' & k & E2 & SD & Hc & Ec & _ & Lp & Lc & Hu & Hcov & W & Hstep)]; [congruence|].
  rewrite E in E2. injection E2 as <-. rewrite Lp in Hp. injection Hp as <-.
  destruct Hstep as [(pre & post & A & B & -> & D)|(pre & post & lo & hi & A & B & -> & D & F)].
  - left. exists pre, post. auto.
  - right. exists pre, post, lo, hi. auto 6.
Qed.

Lemma A_make fuel : (length x <= fuel)%nat ->
  exists s' k, makeclusters rnd fuel s = Some (s', k, Ok tt) /\ (k <= length x - 1)%nat /\
    st s' = DONE /\ next rnd s' = (s', Err StopIteration) /\
    well_formed n (clusters s') /\
    forall i, 0 <= i < n -> exists! k, exists lo hi, nth_error (clusters s') k = Some (lo, hi) /\ lo <= i <= hi.
Proof.
  intros Hf. pose proof A_inv as I. pose proof (I_cur _ _ _ _ _ I).
  destruct (makeclusters_ok rnd Hrnd argsort Hsort x y r Hx fuel s I ltac:(lia)) as (s' & k & E & Hk & I' & D).
  exists s', k. conj; auto; try lia.
  - apply next_done; exact D.
  - apply (I_wf _ _ _ _ _ I').
  - intros i Hi.
    pose proof (inv_done_covered argsort Hsort x y r s' I' D i Hi) as Hc.
    destruct Hc as (lo & hi & Hin & Hl). apply In_nth_error in Hin. destruct Hin as [j Hj].
    exists j. split; [exists lo, hi; auto|]. intros j' (lo' & hi' & Hj' & Hl').
    eapply (wf_unique _ _ j j' _ _ i (I_wf _ _ _ _ _ I') Hj Hj'); cbn; lia.
Qed.

Lemma A_reset s0 : construct argsort x y r = Ok s0 ->
  exists s1, reset_clusters s = (s1, Ok tt) /\ lastc s0 = None /\ lastc s1 = Some 0%nat /\
  forall k, let a := iter_next rnd k s1 in let b := iter_next rnd k s0 in
    clusters a = clusters b /\ lastp a = lastp b /\ cur a = cur b /\ st a = st b /\
    snd (next rnd a) = snd (next rnd b).
Proof.
  intros H0. pose proof A_inv as I.
  destruct (construct_ok argsort Hsort x y r Hx Hne s0 H0) as (_ & _ & E0).
  destruct (reset_ok argsort Hsort x y r Hx Hne s I) as (s1 & E1 & _ & E2).
  exists s1. split; [exact E1|]. split; [now subst s0|]. split; [now subst s1|]. intros k a b.
  destruct (iter_congr rnd k s1 s0) as [(Q1 & Q2 & Q3 & Q4 & Q5 & Q6 & Q7 & Q8) Q].
  { subst s1 s0. repeat split. }
  conj; auto.
Qed.
End Assembled.

Lemma zero_res rnd argsort x y s0 s' k fuel :
  faithful rnd -> argsort_ok argsort -> increasing x -> x <> [] ->
  construct argsort x y 0 = Ok s0 -> makeclusters rnd fuel s0 = Some (s', k, Ok tt) ->
  clusters s' = map (fun i => (Z.of_nat i, Z.of_nat i)) (seq 0 (length x)) /\ k = (length x - 1)%nat.
Proof.
  intros Hr Hs Hx Hne H0 Hm.
  pose proof (construct_inv argsort Hs x y 0 Hx Hne s0 H0) as I.
  destruct (construct_ok argsort Hs x y 0 Hx Hne s0 H0) as (L & _ & E0).
  assert (S0 : singles (clusters s0)).
  { subst s0. cbn. intros lo hi [E|[]]. congruence. }
  destruct (makeclusters_singles rnd Hr argsort Hs x y 0 Hx eq_refl fuel s0 s' k I S0 Hm) as [S1 L1].
  assert (D : Inv argsort x y 0 s' /\ st s' = DONE).
  { clear -Hr Hs Hx I Hm. revert s0 k I Hm. induction fuel as [|f IH]; intros s0 k I Hm; [discriminate|].
    cbn [makeclusters] in Hm.
    pose proof (next_inv rnd Hr argsort Hs x y 0 Hx s0 I) as I'.
    destruct (next rnd s0) as [s1 [[]|e]] eqn:E; cbn [fst] in I'.
    - destruct (makeclusters rnd f s1) as [[[s2 k2] r2]|] eqn:E2; [|discriminate].
      injection Hm as <- <- ->. eapply IH; eauto.
    - assert (Hd : st s1 = DONE).
      { assert (HD : st s0 = DONE \/ st s0 <> DONE) by (destruct (st s0); auto; right; discriminate).
        destruct HD as [HD|HD]; [rewrite next_done in E by exact HD; injection E as <- _; exact HD|].
        destruct (next_cases rnd Hr argsort Hs x y 0 Hx s0 I HD) as
          [(s2 & E2 & SD & Ecs & Est & _)|(s2 & c' & k0 & E2 & _)]; congruence. }
      destruct e; try discriminate. injection Hm as <- <-. auto. }
  destruct D as [I' D].
  assert (E : clusters s' = map (fun i => (Z.of_nat i, Z.of_nat i)) (seq 0 (length x))).
  { pose proof (singles_all (Z.of_nat (length x)) (clusters s') 0 (-1) eq_refl) as Q.
    rewrite Nat2Z.id, Nat.sub_0_r in Q. apply Q; auto.
    - apply chain_wf. apply (I_wf _ _ _ _ _ I').
    - intros i Hi. eapply (inv_done_covered argsort Hs x y 0); eauto. lia. }
  split; [exact E|].
  rewrite E, map_length, seq_length in L1. subst s0. cbn in L1. lia.
Qed.

Lemma find2_right rnd s v : st s <> INIT ->
  well_formed (Z.of_nat (length (xs s))) (clusters s) -> clusters s <> [] ->
  (forall a, In a (xs s) -> a < v) -> xs s <> [] ->
  find_nearest_cluster2 rnd s v = Err IndexError.
Proof.
  intros Hst W Hne Hv Hx. unfold find_nearest_cluster2. rewrite (ss_left_all _ _ Hv).
  assert (0 < length (xs s))%nat by (destruct (xs s); [congruence|cbn; lia]).
  destruct (Z.ltb_spec 0 (Z.of_nat (length (xs s)))); [|lia]. cbn [orb].
  assert (F : find_nearest_cluster rnd s (Z.of_nat (length (xs s))) = Err IndexError).
  { unfold find_nearest_cluster.
    apply chain_wf in W.
    destruct (split_search _ _ _ (Z.of_nat (length (xs s))) W) as (pre & post & Ecs & Hpre & Hpost & Hss).
    assert (post = []).
    { destruct post as [|[lo hi] post]; [reflexivity|].
      pose proof (Hpost lo hi ltac:(now left)).
      pose proof (chain_lb _ _ _ W lo hi ltac:(rewrite Ecs; apply in_or_app; right; now left)). lia. }
    subst post. rewrite app_nil_r in Ecs. cbn in Hss. rewrite Hss, flatten_length, Ecs.
    assert (0 < length pre)%nat.
    { destruct pre; [congruence|cbn; lia]. }
    destruct (Nat.eqb_spec (2 * length pre) 0); [lia|].
    replace (length pre + (length pre + 0) + 0)%nat with (2 * length pre)%nat by lia.
    rewrite Nat.eqb_refl.
    assert (P : pyget (xs s) (Z.of_nat (length (xs s))) = Err IndexError).
    { unfold pyget. destruct (Z.ltb_spec (Z.of_nat (length (xs s))) 0); [lia|].
      destruct (Z.ltb_spec (Z.of_nat (length (xs s))) 0); [lia|]. rewrite Z.leb_refl. reflexivity. }
    rewrite P. cbn [bind]. destruct (st s); congruence. }
  rewrite F. destruct (st s); congruence.
Qed.

Lemma find2_left rnd s v : faithful rnd -> st s <> INIT -> increasing (xs s) ->
  well_formed (Z.of_nat (length (xs s))) (clusters s) ->
  forall lo hi cs, clusters s = (lo, hi) :: cs -> v <= at_ (xs s) 0 ->
  find_nearest_cluster2 rnd s v =
    Ok (Some (0%nat, rnd (at_ (xs s) (Z.of_nat (length (xs s)) - 1) - at_ (xs s) lo))).
Proof.
  intros Hr Hst Hx W lo hi cs Ecs Hv. unfold find_nearest_cluster2.
  assert (Hb : 0 <= lo <= hi /\ hi < Z.of_nat (length (xs s))).
  { destruct W as [W1 _]. apply (W1 0%nat). rewrite Ecs. reflexivity. }
  assert (E0 : nth_error (xs s) 0 = Some (at_ (xs s) 0)).
  { unfold at_. apply nth_error_nth'. lia. }
  rewrite (ss_left_unique (xs s) v 0 _ Hx E0 Hv) by lia.
  change (Z.of_nat 0) with 0. cbn [Z.ltb Z.compare orb].
  destruct (Z.leb_spec (Z.of_nat (length (xs s))) 0); [lia|].
  rewrite (pyget_in _ _ _ 0) by lia. cbn [bind].
  assert (P : pyget (xs s) (0 - 1) = Ok (at_ (xs s) (Z.of_nat (length (xs s)) - 1))).
  { unfold pyget. change (0 - 1) with (-1). cbn [Z.ltb Z.compare].
    destruct (Z.ltb_spec (-1 + Z.of_nat (length (xs s))) 0); [lia|].
    destruct (Z.leb_spec (Z.of_nat (length (xs s))) (-1 + Z.of_nat (length (xs s)))); [lia|]. cbn [orb].
    rewrite (nth_error_nth' (xs s) 0) by (apply Nat2Z.inj_lt; rewrite Z2Nat.id; lia). unfold at_.
    replace (-1 + Z.of_nat (length (xs s))) with (Z.of_nat (length (xs s)) - 1) by lia. reflexivity. }
  rewrite P. cbn [bind]. change (nth (Z.to_nat 0) (xs s) 0) with (at_ (xs s) 0).
  assert (at_ (xs s) 0 <= at_ (xs s) (Z.of_nat (length (xs s)) - 1)) by (apply at_le; auto; lia).
  destruct Hr as [Hm Hz].
  pose proof (Hm 0 (at_ (xs s) 0 - v) ltac:(lia)).
  pose proof (Hm (v - at_ (xs s) (Z.of_nat (length (xs s)) - 1)) 0 ltac:(lia)).
  pose proof (proj2 (Hz 0) eq_refl).
  destruct (Z.ltb_spec (rnd (at_ (xs s) 0 - v)) (rnd (v - at_ (xs s) (Z.of_nat (length (xs s)) - 1)))); [lia|].
  assert (F : find_nearest_cluster rnd s (0 - 1) =
     Ok (Some (0%nat, rnd (at_ (xs s) (Z.of_nat (length (xs s)) - 1) - at_ (xs s) lo)))).
  { unfold find_nearest_cluster. rewrite Ecs. cbn [flatten length Nat.eqb searchsorted_left].
    destruct (Z.ltb_spec lo (0 - 1)); [lia|]. cbn [Nat.eqb].
    change (Z.of_nat 0) with 0. rewrite (pyget_in _ _ _ 0) by (cbn [length]; lia). cbn [bind nth Z.to_nat].
    destruct (Z.eqb_spec lo (0 - 1)); [lia|]. change (0 / 2)%nat with 0%nat. change (0 mod 2)%nat with 0%nat. cbn [orb Nat.eqb].
    rewrite P. cbn [bind]. rewrite (pyget_in _ _ _ (0, 0)) by (cbn [length]; lia). cbn [bind nth Z.to_nat fst].
    rewrite (pyget_in _ _ _ 0) by lia. cbn [bind]. destruct (st s); try congruence; reflexivity. }
  rewrite F. destruct (st s); congruence.
Qed.

Lemma find2_at rnd s i : st s <> INIT -> increasing (xs s) -> (0 < i)%nat -> (i < length (xs s))%nat ->
  forall v, at_ (xs s) (Z.of_nat i - 1) < v <= at_ (xs s) (Z.of_nat i) ->
  find_nearest_cluster2 rnd s v = find_nearest_cluster rnd s (Z.of_nat i).
Proof.
  intros Hst Hx H0 Hi v Hv. unfold find_nearest_cluster2.
  assert (E : searchsorted_left (xs s) v = i).
  { apply (ss_left_unique _ _ i (at_ (xs s) (Z.of_nat i))); auto; try lia.
    - unfold at_. rewrite Nat2Z.id. apply nth_error_nth'. lia.
    - intros j b Hj Hb.
      assert (b = at_ (xs s) (Z.of_nat j)).
      { unfold at_. rewrite Nat2Z.id. symmetry. apply nth_error_nth. exact Hb. }
      subst b. pose proof (at_le (xs s) (Z.of_nat j) (Z.of_nat i - 1) Hx ltac:(lia) ltac:(lia) ltac:(lia)). lia. }
  rewrite E. destruct (Z.ltb_spec 0 (Z.of_nat i)); [|lia]. cbn [orb]. destruct (st s); congruence.
Qed.

Lemma np_array2_ok rows : 
  (np_array2 rows = Ok rows /\ forall a b, In a rows -> In b rows -> length a = length b) \/
  (np_array2 rows = Err ValueError /\ exists a b, In a rows /\ In b rows /\ length a <> length b).
Proof.
  unfold np_array2. destruct rows as [|r0 rows]; [left; split; [reflexivity|intros a b []]|].
  destruct (forallb (fun q => Nat.eqb (length q) (length r0)) (r0 :: rows)) eqn:E.
  - left. split; [reflexivity|]. rewrite forallb_forall in E. intros a b Ha Hb.
    apply E in Ha, Hb. apply Nat.eqb_eq in Ha, Hb. congruence.
  - right. split; [reflexivity|].
    assert (H : exists a, In a (r0 :: rows) /\ length a <> length r0).
    { clear -E. induction (r0 :: rows) as [|a l IH]; [discriminate|]. cbn in E.
      apply andb_false_iff in E. destruct E as [E|E].
      - exists a. split; [now left|]. apply Nat.eqb_neq. exact E.
      - destruct (IH E) as (b & Hb & N). exists b. split; [now right|exact N]. }
    destruct H as (a & Ha & N). exists a, r0. repeat split; auto. now left.
Qed.

Lemma find_adjacent_char s : st s <> INIT ->
  let runs := adjacent_runs (clusters s) in
  (forall l r, In (l, r) runs <-> maximal_run (clusters s) l r) /\
  StronglySorted (fun p q => (snd p < fst q)%nat) runs /\
  ((find_adjacent_clusters s = Ok (map (fun p => seq (fst p) (snd p + 1 - fst p)) runs)) \/
   (find_adjacent_clusters s = Err ValueError /\
    exists l r l' r', maximal_run (clusters s) l r /\ maximal_run (clusters s) l' r' /\
                      (r - l <> r' - l')%nat)).
Proof.
  intros Hst runs. split; [intros; apply adjacent_runs_spec|]. split; [apply adjacent_runs_sorted|].
  unfold find_adjacent_clusters. fold runs.
  destruct (np_array2_ok (map (fun p => seq (fst p) (snd p + 1 - fst p)) runs)) as [[E _]|[E (a & b & Ha & Hb & N)]];
    rewrite E.
  - left. destruct (st s); congruence.
  - right. split; [destruct (st s); congruence|].
    apply in_map_iff in Ha, Hb. destruct Ha as ([l r] & <- & Ha), Hb as ([l' r'] & <- & Hb).
    apply adjacent_runs_spec in Ha, Hb. exists l, r, l', r'. split; [exact Ha|]. split; [exact Hb|].
    rewrite !seq_length in N. cbn in N.
    assert (l < r)%nat by apply Ha. assert (l' < r')%nat by apply Hb. lia.
Qed.

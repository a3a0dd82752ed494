(** The invariant of the extraction loop (Extract.v). *)
From Coq Require Import Permutation Sorted.
From Verif Require Import Prelude ModelCluster ModelClusterProofs ModelClusterProps Prune PruneProofs PruneProps AugmentProps Extract.
From Verif Require DataClusters DataClustersSpec DataClustersAdj DataClustersProofs DataClustersMore DataClustersProps.
Open Scope Z_scope.
Notation dcl := DataClusters.clusters.
Notation touching := DataClustersSpec.touching.
Notation well_formed := DataClustersSpec.well_formed.

Lemma Forall2_len {A C} (R : A -> C -> Prop) l l' : Forall2 R l l' -> length l = length l'.
Proof. induction 1; cbn; congruence. Qed.
Lemma Forall2_nth {A C} (R : A -> C -> Prop) l l' : Forall2 R l l' -> forall i a, nth_error l i = Some a ->
  exists c, nth_error l' i = Some c /\ R a c.
Proof. induction 1 as [|a c l l' H F IH]; intros [|i] x E; cbn in *; try discriminate; [injection E as <-; eauto|eauto]. Qed.
Lemma Forall2_nth_r {A C} (R : A -> C -> Prop) l l' : Forall2 R l l' -> forall i c, nth_error l' i = Some c ->
  exists a, nth_error l i = Some a /\ R a c.
Proof. induction 1 as [|a c l l' H F IH]; intros [|i] x E; cbn in *; try discriminate; [injection E as <-; eauto|eauto]. Qed.
Lemma Forall2_upd {A C} (R : A -> C -> Prop) l l' : Forall2 R l l' -> forall k c, (forall a, nth_error l k = Some a -> R a c) -> Forall2 R l (upd l' k c).
Proof.
  induction 1 as [|a b l l' H F IH]; intros k c E; destruct k; cbn; constructor; auto; apply E; reflexivity.
Qed.
Lemma Forall2_upd2 {A C} (R : A -> C -> Prop) l l' : Forall2 R l l' -> forall k a c, R a c -> Forall2 R (upd l k a) (upd l' k c).
Proof. induction 1 as [|a b l l' H F IH]; intros k x c E; destruct k; cbn; constructor; auto. Qed.
Lemma Forall2_del {A C} (R : A -> C -> Prop) l l' : Forall2 R l l' -> forall k, Forall2 R (del_at l k) (del_at l' k).
Proof.
  unfold del_at. induction 1 as [|a b l l' H F IH]; intros k; destruct k; cbn; [constructor|constructor|exact F|constructor; [exact H|apply (IH k)]].
Qed.
Lemma Forall2_insert {A C} (R : A -> C -> Prop) l l' : Forall2 R l l' -> forall k a c, R a c -> Forall2 R (insert_at l k a) (insert_at l' k c).
Proof.
  unfold insert_at. induction 1 as [|a b l l' H F IH]; intros k x c E; destruct k; cbn; try (constructor; [assumption|]); try (constructor; assumption); try assumption; try constructor. apply (IH k x c E).
Qed.
Lemma del_upd_merge {A} (pre post : list A) a b c : del_at (upd (pre ++ a :: b :: post) (length pre) c) (S (length pre)) = pre ++ c :: post.
Proof.
  rewrite DataClustersProofs.upd_app. replace (pre ++ c :: b :: post) with ((pre ++ [c]) ++ b :: post) by now rewrite <- app_assoc.
  rewrite (del_at_app (pre ++ [c]) post b (S (length pre))) by (rewrite app_length; cbn; lia). now rewrite <- app_assoc.
Qed.

Section Proofs.
Context {P B Q Lb : Type}.
Variable T : xtools P B Q.
Notation w := (t_w T).
Notation cluster := (cluster P B).
Variables (bl : B) (cres : Z) (em : nat) (pf : list nat).
Variable rec : list Z -> list Z -> list Z -> option (result cluster).
Variable depth : nat.
Variables ax ay ae : array.

Hypothesis RND : DataClustersSpec.faithful (w_rnd w).
Hypothesis AS : argsort_ok (w_argsort w).
Hypothesis DAS : DataClustersSpec.argsort_ok (t_argsort T).
Hypothesis BLE : w_bl_eqb w bl bl = true.
Hypothesis BLL : forall b r, length (w_blvalue w b r) = length r.
Hypothesis LY : length (adat ay) = length (adat ax).
Hypothesis LE : length (adat ae) = length (adat ax).
Hypothesis INC : DataClustersSpec.increasing (adat ax).
Hypothesis NE : adat ax <> [].

Lemma rnd_sign x : w_rnd w x < 0 <-> x < 0.
Proof.
  destruct RND as [M Z0]. pose proof (proj2 (Z0 0) eq_refl) as R0. split; intros H.
  - destruct (Z.lt_ge_cases x 0) as [|G]; [assumption|]. specialize (M _ _ G). lia.
  - pose proof (M x 0 ltac:(lia)). pose proof (Z0 x). lia.
Qed.

(** A model cluster for the data cluster p. *)
Definition holds (p : Z * Z) (c : cluster) : Prop :=
  Z.of_nat (c_start c) = fst p /\ Z.of_nat (c_stop c) = snd p + 1 /\
  c_r c = ax /\ c_y c = ay /\ c_e c = ae /\ c_em c = em /\ c_base c = Some bl.

Lemma fit_base_gen c justify : c_base (fr_c (fit w c justify 0 false true)) = c_base c.
Proof.
  unfold fit. destruct (c_never c); [reflexivity|].
  assert (E : forall c1 o, estimatepeak w c = (c1, o) -> c_base c1 = c_base c).
  { intros c1 o E. unfold estimatepeak in E. destruct (c_pf c); [now injection E as <- _|]. destruct (w_estimate w c) as [[p|]|]; try (now injection E as <- _).
    destruct (replacepeaks w (c_model c) [p] (Some 0%Z) (Some 0%Z)) as [m [u|x]]; injection E as <- _; reflexivity. }
  destruct (c_model c) as [|p0 m0] eqn:M.
  - destruct (estimatepeak w c) as [c1 o] eqn:EP. specialize (E c1 o eq_refl).
    destruct o as [b|x]; [|destruct x; exact E]. cbn [andb].
    destruct (w_engine w _ _ _ _) as [[ps ob] [[]|x]]; [|destruct x; exact E].
    destruct (cleanfit w _ _ _) as [[ps2 n]|x]; [|exact E]. destruct (w_qlt w _ _); [exact E|].
    destruct (_ && _); [|exact E]. destruct (min_npars _ _); [|exact E]. destruct (w_growth _ _ _ _); exact E.
  - cbn [andb]. destruct (w_engine w _ _ _ _) as [[ps ob] [[]|x]]; [|destruct x; reflexivity].
    destruct (cleanfit w _ _ _) as [[ps2 n]|x]; [|reflexivity]. destruct (w_qlt w _ _); [reflexivity|].
    destruct (_ && _); [|reflexivity]. destruct (min_npars _ _); [|reflexivity]. destruct (w_growth _ _ _ _); reflexivity.
Qed.

Lemma fit_holds p c c' : fit_true T c = Ok c' -> holds p c -> holds p c'.
Proof.
  unfold fit_true. pose proof (fit_frame w AS c true 0 false true) as (F1 & F2 & F3 & F4 & F5 & F6 & F7 & F8).
  pose proof (fit_base_gen c true) as FB. destruct (fr_out _); [|discriminate]. intros E. injection E as <-.
  unfold holds. rewrite F1, F2, F3, F4, F5, F7, FB. auto.
Qed.
Lemma set_model_holds p c m : holds p c -> holds p (set_model c m).
Proof. intros H. exact H. Qed.

Lemma fit_all_holds cs is : forall mcs mcs', fit_all T mcs is = Ok mcs' -> Forall2 holds cs mcs -> Forall2 holds cs mcs'.
Proof.
  induction is as [|i is IH]; intros mcs mcs' E F; cbn [fit_all] in E; [now injection E as <-|].
  destruct (nth_error mcs i) as [c|] eqn:N; [|discriminate]. destruct (fit_true T c) as [c'|] eqn:FT; cbn [bind] in E; [|discriminate].
  apply (IH _ _ E). apply Forall2_upd; [exact F|]. intros a Na.
  destruct (Forall2_nth _ _ _ F _ _ Na) as (c0 & Nc & H). rewrite N in Nc. injection Nc as <-. exact (fit_holds _ _ _ FT H).
Qed.

Lemma fit_last_holds cs mcs k mp mcs' : fit_last T mcs k mp = Ok mcs' -> Forall2 holds cs mcs -> Forall2 holds cs mcs'.
Proof.
  unfold fit_last. destruct (nth_error mcs k) as [c|] eqn:N; [|discriminate].
  intros E F.
  assert (H : forall a, holds a c -> holds a (fr_c (contingent_fit w c mp 2 1))).
  { intros a Ha. unfold contingent_fit. destruct (fit_due _ _ _ _); [|exact Ha].
    pose proof (fit_frame w AS c true 0 false true) as (F1 & F2 & F3 & F4 & F5 & F6 & F7 & F8). pose proof (fit_base_gen c true) as FB.
    unfold holds. rewrite F1, F2, F3, F4, F5, F7, FB. exact Ha. }
  destruct (fr_out _); [|discriminate]. injection E as <-. apply Forall2_upd; [exact F|]. intros q Na.
  destruct (Forall2_nth _ _ _ F _ _ Na) as (c0 & Nc & Hc). rewrite N in Nc. injection Nc as <-. auto.
Qed.

Lemma make_holds m r y e sl b em' c : make_cluster w m b r y e (Some sl) em' pf = Ok c ->
  c_model c = m /\ c_base c = b /\ c_r c = r /\ c_y c = y /\ c_e c = e /\ c_start c = fst sl /\ c_stop c = snd sl /\ c_em c = em' /\ c_pf c = pf.
Proof.
  unfold make_cluster, change_slice_from. destruct sl as [a b0]. destruct (all_below w _ _ _ _); [|discriminate].
  intros E. injection E as <-. repeat split.
Qed.
Lemma copy_holds p c c' : copy_cluster w c = Ok c' -> holds p c -> holds p c' /\ c_model c' = c_model c.
Proof.
  unfold copy_cluster, make_cluster, change_slice_from. destruct (all_below w _ _ _ _); [|discriminate].
  intros E. injection E as <-. intros H. split; [exact H|reflexivity].
Qed.
Lemma rebuild_holds p c other new c' : rebuild T c other new = Ok c' -> holds p c -> holds p c'.
Proof.
  unfold rebuild. destruct (replacepeaks w other new _ _) as [m [u|e]]; [|discriminate]. intros E H. exact (fit_holds _ _ _ E (set_model_holds _ _ m H)).
Qed.

Lemma obind_ok {A C} (m : option (result A)) (f : A -> option (result C)) r :
  obind m f = Some (Ok r) -> exists a, m = Some (Ok a) /\ f a = Some (Ok r).
Proof. destruct m as [[a|e]|]; cbn [obind]; try discriminate. eauto. Qed.
Lemma lift_ok {A} (r : result A) a : lift r = Some (Ok a) -> r = Ok a.
Proof. intros E. now injection E. Qed.

Lemma boundary_holds cs mcs k mcs' : boundary T bl em pf rec depth ax ay ae mcs k = Some (Ok mcs') -> Forall2 holds cs mcs -> Forall2 holds cs mcs'.
Proof.
  unfold boundary. destruct (nth_error mcs k) as [c|] eqn:N; [|discriminate]. intros E F.
  apply obind_ok in E as (c0 & E0 & E). apply lift_ok in E0. apply obind_ok in E as (full & E1 & E). apply lift_ok in E1.
  apply obind_ok in E as (bx & _ & E). apply obind_ok in E as (by_ & _ & E).
  apply obind_ok in E as (a & _ & E). apply obind_ok in E as (a' & _ & E). apply obind_ok in E as (full' & E2 & E). apply lift_ok in E2.
  injection E as <-. apply Forall2_upd; [exact F|]. intros p Np.
  destruct (Forall2_nth _ _ _ F _ _ Np) as (c1 & Nc & H). rewrite N in Nc. injection Nc as <-.
  eapply rebuild_holds; [exact E2|]. eapply fit_holds; [exact E1|]. eapply copy_holds; eauto.
Qed.

(** Joining two touching clusters. *)
Lemma combine_pair_holds cs mcs pre a b post mcs' : forall ms, Forall2 holds ms mcs -> ms = pre ++ a :: b :: post ->
  fst b = snd a + 1 -> 0 <= fst a <= snd a -> 0 <= fst b <= snd b ->
  snd b < Z.of_nat (length (adat ax)) ->
  combine_pair T bl em pf rec depth ax ay ae cs mcs (S (length pre)) = Some (Ok mcs') -> Forall2 holds (pre ++ (fst a, snd b) :: post) mcs'.
Proof.
  intros ms F -> TCH RA RB RN E. unfold combine_pair in E. replace (S (length pre) - 1)%nat with (length pre) in E by lia.
  destruct (Forall2_nth _ _ _ F (length pre) a) as (ml & Nl & Hl). { rewrite nth_error_app2, Nat.sub_diag by lia. reflexivity. }
  destruct (Forall2_nth _ _ _ F (S (length pre)) b) as (mr & Nr & Hr). { rewrite nth_error_app2 by lia. replace (S (length pre) - length pre)%nat with 1%nat by lia. reflexivity. }
  rewrite Nl, Nr in E. destruct (nth_error cs (length pre)) as [cl|]; [|discriminate]. destruct (nth_error cs (S (length pre))) as [cr|]; [|discriminate].
  apply obind_ok in E as (new & E0 & E). apply lift_ok in E0.
  apply obind_ok in E as (x1 & _ & E). apply obind_ok in E as (x2 & _ & E). apply obind_ok in E as (y1 & _ & E). apply obind_ok in E as (y2 & _ & E).
  apply obind_ok in E as (aa & _ & E). apply obind_ok in E as (a1 & _ & E). apply obind_ok in E as (a2 & _ & E). apply obind_ok in E as (rej & _ & E).
  apply obind_ok in E as (new' & E1 & E). apply lift_ok in E1. injection E as <-.
  destruct Hl as (S1 & S2 & S3 & S4 & S5 & S6 & S7), Hr as (R1 & R2 & R3 & R4 & R5 & R6 & R7).
  assert (NB : neighbours w ml mr).
  { unfold neighbours, data_ok. rewrite S3, S4, S5, S6, R3, R4, R5, R6, LY, LE, S7. unfold valuebl. rewrite BLL. repeat (split; [reflexivity || lia|]). auto. }
  destruct (proj1 (C41_join_adjacent w rnd_sign ml mr NB)) as (c & J & JR). { rewrite S7, R7. exact BLE. }
  rewrite J in E0. injection E0 as <-. destruct JR as (J1 & J2 & J3 & J4 & J5 & J6 & J7 & _).
  assert (HN : holds (fst a, snd b) c). { unfold holds. rewrite J1, J2, J3, J4, J5, J6, J7. cbn [fst snd]. auto 10. }
  pose proof (rebuild_holds _ _ _ _ _ E1 HN) as HN'.
  replace (pre ++ (fst a, snd b) :: post) with (del_at (upd (pre ++ a :: b :: post) (length pre) (fst a, snd b)) (S (length pre))) by apply del_upd_merge.
  apply Forall2_del. apply Forall2_upd2; assumption.
Qed.

Lemma delete_from_app {A} (l1 l2 : list A) idxs : forall k, delete_from k (l1 ++ l2) idxs = delete_from k l1 idxs ++ delete_from (k + length l1) l2 idxs.
Proof.
  induction l1 as [|a l1 IH]; intros k; cbn [app delete_from length]; [f_equal; lia|]. rewrite IH.
  replace (S k + length l1)%nat with (k + S (length l1))%nat by lia. destruct (existsb _ _); reflexivity.
Qed.
Lemma delete_from_keep {A} (l : list A) idxs : forall k, (forall i, In i idxs -> (i < k \/ k + length l <= i)%nat) -> delete_from k l idxs = l.
Proof.
  induction l as [|a l IH]; intros k H; cbn [delete_from]; [reflexivity|]. cbn [length] in H.
  destruct (existsb (Nat.eqb k) idxs) eqn:X; [apply DataClustersAdj.existsb_eqb_in in X; specialize (H _ X); lia|].
  f_equal. apply IH. intros i Hi. specialize (H _ Hi). lia.
Qed.
Lemma delete_from_drop {A} (l : list A) idxs : forall k, (forall i, (k <= i < k + length l)%nat -> In i idxs) -> delete_from k l idxs = [].
Proof.
  induction l as [|a l IH]; intros k H; cbn [delete_from]; [reflexivity|]. cbn [length] in H.
  assert (existsb (Nat.eqb k) idxs = true) as -> by (apply DataClustersAdj.existsb_eqb_in, H; lia).
  apply IH. intros i Hi. apply H. lia.
Qed.

(** What combining a run does to the list of clusters. *)
Lemma combine_run s pre run post a z : dcl s = pre ++ run ++ post -> (2 <= length run)%nat ->
  (forall i, (length pre <= i < length pre + length run - 1)%nat -> touching (dcl s) i) ->
  nth_error run 0 = Some a -> nth_error run (length run - 1) = Some z ->
  exists s', DataClusters.combine_clusters s [seq (length pre) (length run)] = (s', Ok tt) /\
    dcl s' = pre ++ (fst a, snd z) :: post.
Proof.
  intros E L TC N0 NZ. unfold DataClusters.combine_clusters. cbn [DataClusters.np_array2 forallb]. rewrite Nat.eqb_refl. cbn [andb concat].
  rewrite app_nil_r. assert (DataClusters.has_dup (seq (length pre) (length run)) = false) as -> by (apply DataClustersAdj.has_dup_false, seq_NoDup).
  destruct run as [|a0 run]; [cbn in L; lia|]. cbn [nth_error] in N0. injection N0 as ->. cbn [length] in *.
  destruct run as [|b run]; [cbn in L; lia|]. set (m := length (b :: run)) in *. cbn [DataClusters.combine_loop].
  replace (seq (length pre) (S m)) with (length pre :: seq (S (length pre)) m) by reflexivity.
  replace (length pre :: seq (S (length pre)) m) with (seq (length pre) (S m)) by reflexivity.
  cbn [seq]. cbn [seq DataClusters.combine_loop]. change (length pre :: seq (S (length pre)) m) with (seq (length pre) (S m)).
  rewrite DataClustersAdj.last_seq.
  assert (DataClusters.check_group (dcl s) (seq (length pre) (S m)) (length pre) (length pre) (length pre + m - length pre) = Ok tt) as ->.
  { apply DataClustersAdj.check_group_ok; [lia|]. intros j Hj. split; [apply DataClustersAdj.touch_iff, TC; lia|].
    exists j. rewrite !DataClustersAdj.nth_error_seq by lia. split; f_equal; lia. }
  assert (NF : nth_error (dcl s) (length pre) = Some a) by (rewrite E, nth_error_app2, Nat.sub_diag by lia; reflexivity).
  assert (NL : nth_error (dcl s) (length pre + m) = Some z).
  { rewrite E, nth_error_app2 by lia. replace (length pre + m - length pre)%nat with m by lia.
    rewrite nth_error_app1 by (unfold m; cbn; lia). rewrite <- NZ. f_equal; lia. }
  rewrite NF, NL, E. destruct a as [lo h0].
  destruct z as [l1 hi]. cbn [map concat]. change (seq (length pre) (S m)) with (length pre :: seq (S (length pre)) m). cbn [tl]. rewrite app_nil_r, seq_length. unfold m at 1. cbn [length Nat.eqb].
  eexists. split; [reflexivity|]. cbn [DataClusters.clusters]. unfold np_delete. cbn [app]. rewrite DataClustersProofs.upd_app.
  rewrite delete_from_app. rewrite (delete_from_keep pre) by (intros i Hi; apply in_seq in Hi; lia). f_equal. cbn [Nat.add fst snd].
  change ((lo, hi) :: b :: run ++ post) with ([(lo, hi)] ++ (b :: run) ++ post).
  rewrite !delete_from_app. rewrite (delete_from_keep [(lo, hi)]) by (intros i Hi; apply in_seq in Hi; cbn; lia).
  cbn [length app]. replace (length pre + 1)%nat with (S (length pre)) by lia.
  rewrite (delete_from_drop (b :: run)) by (intros i Hi; apply in_seq; unfold m; cbn [length] in *; lia).
  rewrite (delete_from_keep post) by (intros i Hi; apply in_seq in Hi; unfold m in Hi; cbn [length] in *; lia). reflexivity.
Qed.
(** *** One step of the iterator from a state without touching clusters *)
Notation reach := (DataClustersSpec.reach (w_rnd w) (t_argsort T) (adat ax)).

Lemma nth_touch (cs : list (Z * Z)) i : touching cs i <-> exists p q, nth_error cs i = Some p /\ nth_error cs (S i) = Some q /\ fst q = snd p + 1.
Proof.
  unfold touching. split.
  - intros (lo & hi & lo' & hi' & A & C & D). exists (lo, hi), (lo', hi'). auto.
  - intros ([lo hi] & [lo' hi'] & A & C & D). exists lo, hi, lo', hi'. auto.
Qed.

Lemma step_shape yd s s1 : reach yd cres s -> (forall i, ~ touching (dcl s) i) -> DataClusters.next (w_rnd w) s = (s1, Ok tt) ->
  exists pre post a b, dcl s1 = pre ++ (a, b) :: post /\ DataClusters.lastc s1 = Some (length pre) /\
    (dcl s = pre ++ post \/ exists lo hi, dcl s = pre ++ (lo, hi) :: post /\ a <= lo /\ hi <= b) /\
    (forall i, touching (dcl s1) i -> S i = length pre \/ i = length pre).
Proof.
  intros R NT N. destruct (DataClustersProps.C02_next_progress _ _ _ _ _ _ _ RND DAS INC NE R N) as (t & k & lo & hi & LP & _).
  destruct (DataClustersProps.C04_resolution_rule _ _ _ _ _ _ _ _ RND DAS INC NE R N LP) as
    [(pre & post & E & E1 & LC & _)|(pre & post & l & h & E & E1 & LC & _)].
  - exists pre, post, t, t. split; [exact E1|]. split; [exact LC|]. split; [now left|]. intros i H.
    destruct (Nat.eq_dec (S i) (length pre)) as [|D1]; [now left|]. destruct (Nat.eq_dec i (length pre)) as [|D2]; [now right|]. exfalso.
    rewrite E1 in H. apply nth_touch in H as (p & q & A & C & D). destruct (Nat.lt_ge_cases i (length pre)) as [Hi|Hi].
    + apply (NT i). apply nth_touch. exists p, q. rewrite E. rewrite !nth_error_app1 in * by lia. auto.
    + destruct i as [|i]; [lia|]. apply (NT i). apply nth_touch. exists p, q. rewrite E.
      rewrite (nth_error_app2 pre _ (n := i)) by lia. rewrite (nth_error_app2 pre _ (n := S i)) by lia.
      rewrite (nth_error_app2 pre _ (n := S i)) in A by lia. rewrite (nth_error_app2 pre _ (n := S (S i))) in C by lia.
      replace (S i - length pre)%nat with (S (i - length pre)) in * by lia. replace (S (S i) - length pre)%nat with (S (S (i - length pre))) in C by lia. exact (conj A (conj C D)).
  - exists pre, post, (Z.min l t), (Z.max h t). split; [exact E1|]. split; [exact LC|]. split; [right; exists l, h; split; [exact E|lia]|]. intros i H.
    destruct (Nat.eq_dec (S i) (length pre)) as [|D1]; [now left|]. destruct (Nat.eq_dec i (length pre)) as [|D2]; [now right|]. exfalso.
    rewrite E1 in H. apply nth_touch in H as (p & q & A & C & D). apply (NT i). apply nth_touch. exists p, q. rewrite E.
    destruct (Nat.lt_ge_cases i (length pre)) as [Hi|Hi].
    + rewrite !nth_error_app1 in * by lia. auto.
    + rewrite (nth_error_app2 pre _ (n := i)) by lia. rewrite (nth_error_app2 pre _ (n := S i)) by lia.
      rewrite (nth_error_app2 pre _ (n := i)) in A by lia. rewrite (nth_error_app2 pre _ (n := S i)) in C by lia.
      replace (S i - length pre)%nat with (S (i - length pre)) in * by lia. destruct (i - length pre)%nat eqn:X; [lia|]. exact (conj A (conj C D)).
Qed.

(** The touching clusters after such a step form one run of at most three. *)
Lemma adjacent_shape s k : DataClusters.st s <> DataClusters.INIT -> (forall i, touching (dcl s) i -> S i = k \/ i = k) ->
  exists l m rows, DataClusters.find_adjacent_clusters s = Ok rows /\ adjacent_of s = Ok (seq l m) /\
    rows = (if (m =? 0)%nat then [] else [seq l m]) /\ (m = 0 \/ m = 2 \/ m = 3)%nat /\
    (forall i, touching (dcl s) i <-> (l <= i /\ S i < l + m)%nat).
Proof.
  intros ST H. assert (MR : forall i, touching (dcl s) i -> exists l r, DataClustersSpec.maximal_run (dcl s) l r /\ (l <= i < r)%nat).
  { assert (RG : forall i, touching (dcl s) i -> (S i < length (dcl s))%nat).
    { intros i Ti. apply DataClustersAdj.touch_iff in Ti. now apply DataClustersAdj.touch_range in Ti. }
    assert (DEC : forall i, touching (dcl s) i \/ ~ touching (dcl s) i).
    { intros i. destruct (DataClusters.touch (dcl s) i) eqn:X; [left; now apply DataClustersAdj.touch_iff|].
      right. intros C. apply DataClustersAdj.touch_iff in C. congruence. }
    intros i Ti. unfold DataClustersSpec.maximal_run. destruct (H i Ti) as [E|E].
    - subst k. destruct (DEC (S i)) as [T1|T1].
      + exists i, (S (S i)). split; [|lia]. split; [lia|]. split; [apply RG in T1; lia|].
        split; [intros j Hj; assert (j = i \/ j = S i) as [-> | ->] by lia; assumption|].
        split; [intros j Hj C|intros C]; apply H in C; lia.
      + exists i, (S i). split; [|lia]. split; [lia|]. split; [now apply RG|].
        split; [intros j Hj; assert (j = i) as -> by lia; assumption|]. split; [intros j Hj C; apply H in C; lia|exact T1].
    - subst k. destruct i as [|i].
      + exists 0%nat, 1%nat. split; [|lia]. split; [lia|]. split; [now apply RG in Ti|].
        split; [intros j Hj; assert (j = 0%nat) as -> by lia; assumption|]. split; [intros j Hj; lia|intros C; apply H in C; lia].
      + destruct (DEC i) as [T1|T1].
        * exists i, (S (S i)). split; [|lia]. split; [lia|]. split; [now apply RG|].
          split; [intros j Hj; assert (j = i \/ j = S i) as [-> | ->] by lia; assumption|].
          split; [intros j Hj C|intros C]; apply H in C; lia.
        * exists (S i), (S (S i)). split; [|lia]. split; [lia|]. split; [now apply RG|].
          split; [intros j Hj; assert (j = S i) as -> by lia; assumption|]. split; [intros j Hj C|intros C; apply H in C; lia].
          assert (j = i) as -> by lia. contradiction. }
  assert (UN : forall l r l' r', DataClustersSpec.maximal_run (dcl s) l r -> DataClustersSpec.maximal_run (dcl s) l' r' -> ~ (r < l')%nat).
  { intros l r l' r' (A1 & A2 & A3 & A4 & A5) (B1 & B2 & B3 & B4 & B5) C.
    pose proof (H _ (A3 l ltac:(lia))). pose proof (H _ (B3 l' ltac:(lia))). lia. }
  assert (EQ : forall l r l' r', DataClustersSpec.maximal_run (dcl s) l r -> DataClustersSpec.maximal_run (dcl s) l' r' -> l = l' /\ r = r').
  { intros l r l' r' M1 M2. pose proof (UN _ _ _ _ M1 M2) as U1. pose proof (UN _ _ _ _ M2 M1) as U2.
    destruct M1 as (A1 & A2 & A3 & A4 & A5), M2 as (B1 & B2 & B3 & B4 & B5).
    pose proof (H _ (A3 l ltac:(lia))). pose proof (H _ (B3 l' ltac:(lia))). pose proof (H _ (A3 (r - 1)%nat ltac:(lia))). pose proof (H _ (B3 (r' - 1)%nat ltac:(lia))).
    split.
    - destruct (Nat.lt_trichotomy l l') as [C|[C|C]]; [|exact C|]; exfalso.
      + apply (B4 (l' - 1)%nat); [lia|]. apply A3. lia.
      + apply (A4 (l - 1)%nat); [lia|]. apply B3. lia.
    - destruct (Nat.lt_trichotomy r r') as [C|[C|C]]; [|exact C|]; exfalso.
      + apply A5. apply B3. lia.
      + apply B5. apply A3. lia. }
  destruct (DataClustersProps.C07_find_adjacent_exact s ST) as (runs & RI & RS & [FA|(FA & l & r & l' & r' & M1 & M2 & D)]).
  2:{ exfalso. destruct (EQ _ _ _ _ M1 M2) as [-> ->]. lia. }
  destruct runs as [|[l r] runs].
  - exists 0%nat, 0%nat, []. unfold adjacent_of. rewrite FA. split; [reflexivity|]. split; [reflexivity|]. split; [reflexivity|]. split; [now left|].
    intros i. split; [intros Ti; exfalso|lia]. destruct (MR _ Ti) as (l & r & M & _). now apply RI in M.
  - assert (runs = []) as ->.
    { destruct runs as [|[l' r'] runs]; [reflexivity|]. exfalso. apply (UN l r l' r'); [apply RI; now left|apply RI; right; now left|].
      inversion RS as [|? ? _ F]; subst. inversion F; subst. assumption. }
    assert (M : DataClustersSpec.maximal_run (dcl s) l r) by (apply RI; now left).
    exists l, (r + 1 - l)%nat, [seq l (r + 1 - l)]. unfold adjacent_of. rewrite FA. cbn [map concat bind fst snd]. rewrite app_nil_r.
    pose proof M as (A1 & A2 & A3 & A4 & A5). pose proof (H _ (A3 l ltac:(lia))). pose proof (H _ (A3 (r - 1)%nat ltac:(lia))).
    split; [reflexivity|]. split; [reflexivity|]. split; [destruct (Nat.eqb_spec (r + 1 - l) 0); [lia|reflexivity]|]. split; [lia|].
    intros i. split; [|intros Hi; apply A3; lia]. intros Ti. destruct (MR _ Ti) as (l' & r' & M' & Hi). destruct (EQ _ _ _ _ M M') as [<- <-]. lia.
Qed.
(** *** The invariant *)
Record inv (yd : list Z) (s : DataClusters.dc) (mcs : list cluster) : Prop := {
  i_reach : reach yd cres s;
  i_match : Forall2 holds (dcl s) mcs;
  i_apart : forall i, ~ touching (dcl s) i }.

Lemma valid_of p : 0 <= fst p <= snd p -> snd p < Z.of_nat (length (adat ax)) ->
  (Z.to_nat (fst p) < Z.to_nat (snd p + 1) <= length (adat ax))%nat.
Proof. lia. Qed.

Lemma fresh_holds p : 0 <= fst p <= snd p -> snd p < Z.of_nat (length (adat ax)) ->
  exists c, fresh T bl em pf ax ay ae (fst p, snd p + 1) = Ok c /\ holds p c.
Proof.
  intros H1 H2. unfold fresh. cbn [fst snd].
  destruct (make_ok w [] (Some bl) ax ay ae (Z.to_nat (fst p)) (Z.to_nat (snd p + 1)) em pf rnd_sign LY LE) as (v & E).
  { unfold valuebl. apply BLL. } { now apply valid_of. }
  eexists. split; [exact E|]. unfold holds. cbn. repeat (split; [lia || reflexivity|]). reflexivity.
Qed.

Lemma sync_ok yd s mcs s1 : inv yd s mcs -> DataClusters.next (w_rnd w) s = (s1, Ok tt) ->
  exists m1, sync T bl em pf ax ay ae s1 mcs = Ok m1 /\ Forall2 holds (dcl s1) m1.
Proof.
  intros [R M NT] N. destruct (step_shape _ _ _ R NT N) as (pre & post & a & b & E1 & LC & SH & _).
  assert (R1 : reach yd cres s1) by (replace s1 with (fst (DataClusters.next (w_rnd w) s)) by (rewrite N; reflexivity); now constructor).
  destruct (DataClustersProps.C01_clusters_well_formed _ _ _ _ _ _ RND DAS INC NE R1) as ((W1 & W2) & _).
  assert (NK : nth_error (dcl s1) (length pre) = Some (a, b)) by (rewrite E1, nth_error_app2, Nat.sub_diag by lia; reflexivity).
  pose proof (W1 _ _ _ NK) as RG. unfold sync. rewrite LC. unfold DataClusters.cut. rewrite NK. cbn [bind].
  pose proof (Forall2_len _ _ _ M) as LM. destruct SH as [E|(lo & hi & E & Ha & Hb)].
  - destruct (Nat.ltb_spec (length mcs) (length (dcl s1))) as [_|C]; [|rewrite E1, <- LM, E, !app_length in C; cbn in C; lia].
    destruct (fresh_holds (a, b) ltac:(cbn; lia) ltac:(cbn; lia)) as (c & F & H). cbn [fst snd] in F. rewrite F. cbn [bind]. eexists. split; [reflexivity|].
    rewrite E1. rewrite <- (DataClustersProofs.insert_at_app _ pre post). apply Forall2_insert; [now rewrite <- E|exact H].
  - destruct (Nat.ltb_spec (length mcs) (length (dcl s1))) as [C|_]; [rewrite E1, <- LM, E, !app_length in C; cbn in C; lia|].
    assert (NK0 : nth_error (dcl s) (length pre) = Some (lo, hi)) by (rewrite E, nth_error_app2, Nat.sub_diag by lia; reflexivity).
    destruct (Forall2_nth _ _ _ M _ _ NK0) as (c & NC & H). rewrite NC.
    destruct (DataClustersProps.C01_clusters_well_formed _ _ _ _ _ _ RND DAS INC NE R) as ((V1 & V2) & _). pose proof (V1 _ _ _ NK0) as RG0.
    pose proof H as (H1 & H2 & H3 & H4 & H5 & H6 & H7). cbn [fst snd] in *.
    destruct (change_slice_step w c (Z.to_nat a) (Z.to_nat (b + 1)) rnd_sign) as (c' & CS & SD & S1 & S2 & _).
    { unfold data_ok. rewrite H3, H4, H5, H7. unfold valuebl. rewrite BLL. auto. }
    { unfold valid_slice. cbn [fst snd]. rewrite H3. lia. } { unfold valid_slice. cbn [fst snd]. rewrite H3. lia. }
    rewrite CS. eexists. split; [reflexivity|]. rewrite E1. rewrite <- (DataClustersProofs.upd_app _ pre post (lo, hi)). rewrite <- E.
    apply Forall2_upd2; [exact M|]. unfold same_data in SD. unfold holds. cbn [fst snd].
    rewrite S1, S2. split; [lia|]. split; [lia|]. intuition congruence.
Qed.

Lemma head_ok yd s mcs s1 : inv yd s mcs -> DataClusters.next (w_rnd w) s = (s1, Ok tt) ->
  exists m1 l m, head T bl em pf ax ay ae s1 mcs = Ok (m1, seq l m) /\ Forall2 holds (dcl s1) m1 /\ (m = 0 \/ m = 2 \/ m = 3)%nat /\
    (forall i, touching (dcl s1) i <-> (l <= i /\ S i < l + m)%nat) /\
    DataClusters.find_adjacent_clusters s1 = Ok (if (m =? 0)%nat then [] else [seq l m]).
Proof.
  intros I N. destruct (sync_ok _ _ _ _ I N) as (m1 & SY & F). destruct I as [R M NT].
  destruct (step_shape _ _ _ R NT N) as (pre & post & a & b & E1 & LC & SH & TC).
  assert (R1 : reach yd cres s1) by (replace s1 with (fst (DataClusters.next (w_rnd w) s)) by (rewrite N; reflexivity); now constructor).
  assert (ST : DataClusters.st s1 <> DataClusters.INIT).
  { pose proof (DataClustersMore.A_inv _ _ _ _ _ _ RND DAS INC NE R1) as I1. apply I1. }
  destruct (adjacent_shape s1 _ ST TC) as (l & m & rows & FA & AO & ER & Hm & HT).
  exists m1, l, m. unfold head. rewrite SY, AO. cbn [bind]. unfold assertions. rewrite (Forall2_len _ _ _ F), Nat.eqb_refl, seq_length. cbn [negb].
  destruct (Nat.leb_spec m 3) as [_|C]; [|lia]. cbn [negb bind]. split; [reflexivity|]. split; [exact F|]. split; [exact Hm|]. split; [exact HT|]. now rewrite FA, ER.
Qed.

Lemma split_at {A} (l : list A) i : (i <= length l)%nat -> exists pre post, l = pre ++ post /\ length pre = i.
Proof. intros H. exists (firstn i l), (skipn i l). split; [symmetry; apply firstn_skipn|rewrite firstn_length; lia]. Qed.

Lemma body_inv yd mp s1 m1 l m s2 m2 : reach yd cres s1 -> Forall2 holds (dcl s1) m1 -> (m = 0 \/ m = 2 \/ m = 3)%nat ->
  (forall i, touching (dcl s1) i <-> (l <= i /\ S i < l + m)%nat) ->
  DataClusters.find_adjacent_clusters s1 = Ok (if (m =? 0)%nat then [] else [seq l m]) ->
  body T bl em pf rec depth ax ay ae mp s1 m1 (seq l m) = Some (Ok (s2, m2)) -> inv yd s2 m2.
Proof.
  intros R F Hm HT FA E. unfold body in E.
  destruct (DataClusters.lastc s1) as [k|]; [|discriminate]. destruct (DataClusters.lastp s1) as [p|]; [|discriminate].
  apply obind_ok in E as (mA & EA & E). apply lift_ok in EA. apply obind_ok in E as (mB & EB & E). apply lift_ok in EB.
  apply obind_ok in E as (mC & EC & E). apply obind_ok in E as (mD & ED & E).
  assert (FC : Forall2 holds (dcl s1) mC).
  { pose proof (fit_all_holds _ _ _ _ EA F) as FA1. pose proof (fit_last_holds _ _ _ _ _ EB FA1) as FB.
    destruct (_ || _); [exact (boundary_holds _ _ _ _ EC FB)|now injection EC as <-]. }
  destruct (DataClustersProps.C01_clusters_well_formed _ _ _ _ _ _ RND DAS INC NE R) as (W & _). pose proof W as (W1 & W2).
  destruct Hm as [-> |Hm].
  { cbn [seq tl rev combine_all] in ED, E. injection ED as <-. injection E as <- <-. constructor; [exact R|exact FC|]. intros i Ti. apply HT in Ti. lia. }
  assert (Hm0 : (m =? 0)%nat = false) by (apply Nat.eqb_neq; lia). rewrite Hm0 in FA.
  assert (TL : touching (dcl s1) (l + m - 2)) by (apply HT; lia).
  assert (RG : (l + m <= length (dcl s1))%nat). { apply DataClustersAdj.touch_iff in TL. apply DataClustersAdj.touch_range in TL. lia. }
  destruct (split_at (dcl s1) l ltac:(lia)) as (pre & rest & ES & LP).
  destruct (split_at rest m) as (runl & post & ER & LR). { rewrite ES, app_length in RG. lia. }
  subst rest.
  assert (COMB : exists sX, DataClusters.combine_clusters s1 [seq l m] = (sX, Ok tt)).
  { destruct (DataClustersProps.C08_combine_adjacent s1 [seq l m] _ W FA) as (sX & CC & _); [discriminate|eauto]. }
  destruct COMB as (sX & CC).
  destruct (DataClustersProps.C08_combine_adjacent s1 [seq l m] _ W FA) as (sX' & CC' & _ & _ & _ & NT'); [discriminate|].
  rewrite CC in CC'. injection CC' as <-.
  assert (E' : Some (Ok (sX, mD)) = Some (Ok (s2, m2))).
  { destruct m as [|m']; [lia|]. cbn [seq] in E, CC. rewrite CC in E. exact E. }
  clear E. injection E' as <- <-.
  assert (R2 : reach yd cres sX).
  { eapply DataClustersSpec.reach_combine; [exact R| |exact CC]. intros c [<-|[]] i j a b Hij Hi Hj.
    apply DataClustersAdj.nth_seq_error in Hi as [-> _]. apply DataClustersAdj.nth_seq_error in Hj as [-> _]. lia. }
  constructor; [exact R2| |exact NT'].
  (* the clusters of the run *)
  assert (NTH : forall i p, nth_error runl i = Some p -> nth_error (dcl s1) (l + i) = Some p).
  { intros i q Hi. rewrite ES, nth_error_app2 by lia. replace (l + i - length pre)%nat with i by lia. rewrite nth_error_app1; [exact Hi|apply nth_error_Some; congruence]. }
  assert (RNG : forall i q, nth_error runl i = Some q -> 0 <= fst q <= snd q /\ snd q < Z.of_nat (length (adat ax))).
  { intros i [lo hi] Hi. cbn [fst snd]. exact (W1 _ _ _ (NTH _ _ Hi)). }
  assert (TCH : forall i q r, nth_error runl i = Some q -> nth_error runl (S i) = Some r -> (S i < m)%nat -> fst r = snd q + 1).
  { intros i q r Hi Hj Hlt. assert (TT : touching (dcl s1) (l + i)) by (apply HT; lia). apply nth_touch in TT as (q' & r' & A1 & A2 & A3).
    rewrite (NTH _ _ Hi) in A1. replace (S (l + i)) with (l + S i)%nat in A2 by lia. rewrite (NTH _ _ Hj) in A2. congruence. }
  rewrite ES in FC. destruct Hm as [-> | ->].
  - destruct runl as [|a [|b [|? ?]]]; try discriminate LR. cbn [seq tl rev app] in ED. cbn [combine_all] in ED.
    apply obind_ok in ED as (mX & EX & ED). injection ED as <-.
    destruct (combine_run s1 pre [a; b] post a b ES ltac:(cbn; lia)) as (sY & CY & EY); [intros i Hi; apply HT; cbn in Hi; lia|reflexivity|reflexivity|].
    rewrite LP in CY. cbn [length] in CY. rewrite CC in CY. injection CY as <-. rewrite EY. rewrite <- LP in EX.
    eapply combine_pair_holds; [exact FC|reflexivity|apply (TCH 0%nat a b); cbn; auto; lia|apply (RNG 0%nat); reflexivity|apply (RNG 1%nat); reflexivity|apply (RNG 1%nat); reflexivity|exact EX].
  - destruct runl as [|a [|b [|c [|? ?]]]]; try discriminate LR. cbn [seq tl rev app] in ED. cbn [combine_all] in ED.
    apply obind_ok in ED as (mX & EX & ED). apply obind_ok in ED as (mY & EYY & ED). injection ED as <-.
    destruct (combine_run s1 pre [a; b; c] post a c ES ltac:(cbn; lia)) as (sY & CY & EY); [intros i Hi; apply HT; cbn in Hi; lia|reflexivity|reflexivity|].
    rewrite LP in CY. cbn [length] in CY. rewrite CC in CY. injection CY as <-. rewrite EY.
    assert (T1 : fst b = snd a + 1) by (apply (TCH 0%nat a b); cbn; auto; lia). assert (T2 : fst c = snd b + 1) by (apply (TCH 1%nat b c); cbn; auto; lia).
    destruct (RNG 0%nat a eq_refl) as [A1 A2]. destruct (RNG 1%nat b eq_refl) as [B1 B2]. destruct (RNG 2%nat c eq_refl) as [C1 C2].
    assert (FX : Forall2 holds ((pre ++ [a]) ++ (fst b, snd c) :: post) mX).
    { eapply (combine_pair_holds (dcl s1) mC (pre ++ [a]) b c post); [exact FC|rewrite <- app_assoc; reflexivity|exact T2|exact B1|exact C1|exact C2|].
      rewrite app_length, LP. cbn [length]. replace (S (l + 1)) with (S (S l)) by lia. exact EX. }
    rewrite <- LP in EYY. eapply (combine_pair_holds (dcl s1) mX pre a (fst b, snd c) post); [exact FX|rewrite <- app_assoc; reflexivity|exact T1|exact A1|cbn [fst snd]; lia|exact C2|exact EYY].
Qed.

Lemma start_inv yd s mcs mp : start T bl cres em pf ax ay ae yd = Ok (s, mcs, mp) -> inv yd s mcs.
Proof.
  unfold start. destruct (DataClusters.construct (t_argsort T) (adat ax) yd cres) as [s0|] eqn:CS; cbn [bind]; [|discriminate].
  assert (R : reach yd cres s0) by now constructor.
  assert (EC : exists top, dcl s0 = [(top, top)]).
  { unfold DataClusters.construct in CS. destruct (negb _); [discriminate|]. destruct (cres <? 0); [discriminate|].
    destruct (Nat.eqb_spec (length (adat ax)) 0) as [C|_]; [apply length_zero_iff_nil in C; contradiction|].
    destruct (pyget (t_argsort T yd) (-1)) as [top|]; cbn [bind] in CS; [|discriminate]. injection CS as <-. exists top. reflexivity. }
  destruct EC as (top & EC). unfold DataClusters.cut. rewrite EC. cbn [nth_error bind].
  destruct (DataClustersProps.C01_clusters_well_formed _ _ _ _ _ _ RND DAS INC NE R) as ((W1 & _) & _).
  pose proof (W1 0%nat top top ltac:(rewrite EC; reflexivity)) as RG.
  destruct (fresh_holds (top, top) ltac:(cbn; lia) ltac:(cbn; lia)) as (c & F & H). cbn [fst snd] in F. rewrite F. cbn [bind].
  destruct (minpoints_of T em pf); cbn [bind]; [|discriminate]. intros E. injection E as <- <- <-. constructor.
  - exact R.
  - rewrite EC. repeat constructor; apply H.
  - intros i TT. rewrite EC in TT. apply nth_touch in TT as (p & q & _ & A & _). destruct i; discriminate.
Qed.

(** When the iterator stops, one model remains and covers everything. *)
Lemma stop_inv yd s mcs s1 e : inv yd s mcs -> DataClusters.next (w_rnd w) s = (s1, Err e) ->
  e = StopIteration /\ exists c, mcs = [c] /\ holds (0, Z.of_nat (length (adat ax)) - 1) c.
Proof.
  intros [R M NT] N. destruct (DataClustersProps.C02_next_stops_only_when_all_clustered _ _ _ _ _ _ _ _ RND DAS INC NE R N) as (-> & _ & _ & _ & _ & ALL).
  split; [reflexivity|]. destruct (DataClustersProps.C01_clusters_well_formed _ _ _ _ _ _ RND DAS INC NE R) as ((W1 & W2) & NEc & _).
  assert (LX : (0 < length (adat ax))%nat) by (destruct (adat ax); [contradiction|cbn; lia]).
  destruct (dcl s) as [|[lo hi] cs] eqn:EC; [contradiction|].
  assert (L0 : lo = 0).
  { destruct (ALL 0 ltac:(lia)) as (l & h & HI & HH). apply In_nth_error in HI as (j & Hj). pose proof (W1 0%nat lo hi eq_refl). destruct j as [|j]; [injection Hj as <- <-; lia|].
    pose proof (W2 0%nat (S j) lo hi l h ltac:(lia) eq_refl Hj). pose proof (W1 _ _ _ Hj). lia. }
  pose proof (W1 0%nat lo hi eq_refl) as R0.
  assert (H0 : hi = Z.of_nat (length (adat ax)) - 1).
  { destruct (Z.eq_dec hi (Z.of_nat (length (adat ax)) - 1)) as [|D]; [assumption|]. exfalso.
    destruct (ALL (hi + 1) ltac:(lia)) as (l & h & HI & HH). apply In_nth_error in HI as (j & Hj). destruct j as [|j]; [injection Hj as <- <-; lia|].
    destruct cs as [|[l1 h1] cs]; [destruct j; discriminate|].
    pose proof (W2 0%nat 1%nat lo hi l1 h1 ltac:(lia) eq_refl eq_refl). pose proof (W1 1%nat l1 h1 eq_refl).
    assert (l1 <= l). { destruct j as [|j]; [injection Hj as <- <-; lia|]. pose proof (W2 1%nat (S (S j)) l1 h1 l h ltac:(lia) eq_refl Hj). lia. }
    apply (NT 0%nat). exists lo, hi, l1, h1. split; [reflexivity|]. split; [reflexivity|]. lia. }
  subst lo hi. destruct cs as [|[l1 h1] cs].
  - inversion M as [|? c ? ? H F]; subst. inversion F; subst. exists c. split; [reflexivity|exact H].
  - exfalso. pose proof (W2 0%nat 1%nat _ _ l1 h1 ltac:(lia) eq_refl eq_refl). pose proof (W1 1%nat l1 h1 eq_refl). lia.
Qed.
End Proofs.

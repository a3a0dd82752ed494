(** Properties C96 and C97: what boundary recursion and the combination of two clusters
    reconsider (peakextraction.py:960-1096 and 1098-1319). *)
From Coq Require Import Permutation Sorted.
From Verif Require Import Prelude ModelCluster ModelClusterProofs ModelClusterProps Prune PruneProofs PruneProps AugmentProps Extract ExtractProofs ExtractProps.
From Verif Require DataClusters DataClustersSpec DataClustersProofs DataClustersMore.
Open Scope Z_scope.

(** ** Specification *)
(** [p] lies left of [border]; NaN lies left of nothing. *)
Definition left_of {P} (pos : P -> option Z) (border : Z) (p : P) : Prop :=
  exists v, pos p = Some v /\ v < border.
(** [near] are the peaks of [m] next to [border] (one on either side, if there is one) and
    [far] all the others, in order. *)
Definition around {P} (pos : P -> option Z) (border : Z) (m near far fl fr : list P) : Prop :=
  exists l r, m = fl ++ l ++ r ++ fr /\ near = l ++ r /\ far = fl ++ fr /\
    ((length l <= 1)%nat /\ (l = [] -> fl = [])) /\ ((length r <= 1)%nat /\ (r = [] -> fr = [])) /\
    (forall p, In p (fl ++ l) -> left_of pos border p) /\ (forall p, In p (r ++ fr) -> ~ left_of pos border p).

Lemma firstn_snoc {A} (l : list A) k a : nth_error l k = Some a -> firstn (S k) l = firstn k l ++ [a].
Proof. revert l. induction k as [|k IH]; intros [|b l] H; try discriminate; cbn in *; [injection H as ->; reflexivity|]. now rewrite <- (IH l H). Qed.
Lemma skipn_cons {A} (l : list A) k a : nth_error l k = Some a -> skipn k l = a :: skipn (S k) l.
Proof. revert l. induction k as [|k IH]; intros [|b l] H; try discriminate; cbn in *; [injection H as ->; reflexivity|]. now apply IH. Qed.
Lemma pick_range {A} (l : list A) n : forall a, (a + n <= length l)%nat -> pick l (seq a n) = firstn n (skipn a l).
Proof.
  induction n as [|n IH]; intros a H; [reflexivity|]. cbn [seq pick flat_map].
  destruct (nth_error l a) as [x|] eqn:E; [|apply nth_error_None in E; lia].
  rewrite (skipn_cons _ _ _ E). cbn [firstn app]. f_equal. apply IH. lia.
Qed.

Lemma sorted_nth {A} (f : A -> option Z) (l : list A) : pos_sorted f l -> forall i j a b, (i < j)%nat -> nth_error l i = Some a -> nth_error l j = Some b -> pos_le (f a) (f b) = true.
Proof.
  induction 1 as [|c l _ IH F]; intros i j a b Hij Hi Hj; [destruct i; discriminate|]. destruct j as [|j]; [lia|]. cbn in Hj.
  destruct i as [|i]; cbn in Hi; [injection Hi as <-; rewrite Forall_forall in F; apply F; eapply nth_error_In; exact Hj|].
  apply (IH i j); auto; lia.
Qed.

Section Props.
Context {P B Q : Type}.
Variable T : xtools P B Q.
Notation w := (t_w T).
Notation cluster := (cluster P B).
Notation pos := (w_position w).

Section OneCall.
Variables (bl : B) (em : nat) (pf : list nat).
Variable rec : list Z -> list Z -> list Z -> option (result cluster).
Variable depth : nat.
Variables ax ay ae : array.

(** ** C96 *)
Lemma split_pivot (c : cluster) border : pos_sorted pos (c_model c) ->
  let pivot := searchsorted_pos (map pos (c_model c)) border in
  around pos border (c_model c) (near_pk (neighbourhood T ax c border)) (other_pk (neighbourhood T ax c border)) (firstn (pivot - 1) (c_model c)) (skipn (S pivot) (c_model c)).
Proof.
  intros SO. cbv zeta. unfold neighbourhood. set (m := c_model c) in *. cbv zeta. cbn [near_pk other_pk].
  set (pivot := searchsorted_pos (map pos m) border).
  assert (PL : (pivot <= length m)%nat) by (rewrite <- (map_length pos m); apply searchsorted_le).
  assert (SS : StronglySorted (fun a b => pos_le a b = true) (map pos m)).
  { clear - SO. induction SO as [|a l _ IH F]; cbn [map]; constructor; [exact IH|]. rewrite Forall_forall in *. intros x Hx. apply in_map_iff in Hx as (q & <- & Hq). auto. }
  assert (SP : forall i p, nth_error m i = Some p -> ((i < pivot)%nat <-> left_of pos border p)).
  { intros i p Hi. unfold pivot. rewrite (searchsorted_spec _ border SS i (pos p)); [|rewrite nth_error_map, Hi; reflexivity].
    unfold left_of. destruct (pos p) as [v|].
    - split; [intros H; exists v; auto|intros (v' & E & H); injection E as <-; exact H].
    - split; [tauto|intros (v' & E & _); discriminate]. }
  set (l := if (pivot =? 0)%nat then [] else [pivot - 1]%nat). set (r := if (pivot =? length m)%nat then [] else [pivot]).
  assert (HL : firstn (pivot - 1) m ++ pick m l = firstn pivot m).
  { unfold l. destruct (Nat.eqb_spec pivot 0) as [E|E]; [rewrite E; reflexivity|]. cbn [pick flat_map]. destruct (nth_error m (pivot - 1)) as [p|] eqn:N.
    - cbn [app]. rewrite <- (firstn_snoc _ _ _ N). f_equal. lia.
    - apply nth_error_None in N. lia. }
  assert (HR : pick m r ++ skipn (S pivot) m = skipn pivot m).
  { unfold r. destruct (Nat.eqb_spec pivot (length m)) as [E|E]; [rewrite !skipn_all2 by lia; reflexivity|]. cbn [pick flat_map]. destruct (nth_error m pivot) as [p|] eqn:N.
    - cbn [app]. now rewrite (skipn_cons _ _ _ N).
    - apply nth_error_None in N. lia. }
  exists (pick m l), (pick m r). split; [|split; [|split; [|split; [|split; [|split]]]]].
  - rewrite app_assoc, HL, HR. symmetry. apply firstn_skipn.
  - apply pick_app.
  - rewrite pick_app. f_equal.
    + rewrite pick_range by lia. reflexivity.
    + destruct (Nat.le_gt_cases (S pivot) (length m)) as [H|H].
      * rewrite pick_range by lia. apply firstn_all2. rewrite skipn_length. lia.
      * rewrite (skipn_all2 m) by lia. replace (length m - S pivot)%nat with 0%nat by lia. reflexivity.
  - unfold l. destruct (Nat.eqb_spec pivot 0) as [E|E]; cbn [pick flat_map].
    + split; [cbn; lia|]. intros _. rewrite E. reflexivity.
    + destruct (nth_error m (pivot - 1)) eqn:N; [|apply nth_error_None in N; lia]. split; [cbn; lia|discriminate].
  - unfold r. destruct (Nat.eqb_spec pivot (length m)) as [E|E]; cbn [pick flat_map].
    + split; [cbn; lia|]. intros _. apply skipn_all2. lia.
    + destruct (nth_error m pivot) eqn:N; [|apply nth_error_None in N; lia]. split; [cbn; lia|discriminate].
  - intros p Hp. rewrite HL in Hp. apply In_nth_error in Hp as (i & Hi).
    assert (Hl : (i < pivot)%nat). { assert ((i < length (firstn pivot m))%nat) by (apply nth_error_Some; congruence). rewrite firstn_length in H. lia. }
    apply (SP i); [|exact Hl]. rewrite <- Hi. rewrite <- (firstn_skipn pivot m) at 1. apply nth_error_app1. rewrite firstn_length. lia.
  - intros p Hp HLf. rewrite HR in Hp. apply In_nth_error in Hp as (i & Hi).
    apply (SP (pivot + i)%nat) in HLf; [lia|]. rewrite <- Hi. rewrite <- (firstn_skipn pivot m) at 1. rewrite nth_error_app2 by (rewrite firstn_length; lia).
    f_equal. rewrite firstn_length. lia.
Qed.
(** The peaks of a cluster in order of position are divided into those next to the border
    and the others: none is lost, none is counted twice. *)
Theorem C96_neighbourhood_split :
  forall (c : cluster) border, pos_sorted pos (c_model c) ->
    exists fl fr, around pos border (c_model c) (near_pk (neighbourhood T ax c border)) (other_pk (neighbourhood T ax c border)) fl fr.
Proof. intros c border SO. eexists _, _. apply (split_pivot c border SO). Qed.

(** The cluster that results is the fit of [base] with the peaks [far], unchanged, and
    those the neighbourhood was found to have, in order of position. *)
Definition refitted (base : cluster) (far : list P) (c' : cluster) : Prop :=
  exists found m, Permutation m (far ++ found) /\ pos_sorted pos m /\ fit_true T (set_model base m) = Ok c'.

Lemma rebuild_refitted c other new c' : argsort_ok (w_argsort w) -> rebuild T c other new = Ok c' -> refitted c other c'.
Proof.
  intros AS. unfold rebuild, replacepeaks. destruct (slice_bounds (length other) (Some 0) (Some 0)) as [a b] eqn:SB.
  assert (AB : (a = 0 /\ b = 0)%nat).
  { revert SB. unfold slice_bounds, clamp. cbn. intros E. injection E as <- <-. lia. }
  destruct AB as [-> ->]. cbn [slice existsb]. replace (existsb _ (slice other 0 0)) with false by (unfold slice; cbn; reflexivity).
  intros E. exists new, (sort_peaks w (assign_slice other 0 0 new)). split; [|split; [apply (sort_sorted w AS)|exact E]].
  rewrite (sort_perm w AS). unfold assign_slice. cbn. apply Permutation_app_comm.
Qed.

(** Combining two clusters reconsiders at most the two peaks of the joined cluster next to
    the border (half way between the last point of one and the first of the other);
    all others enter the final fit as they were. *)
Theorem C96_combining_keeps_distant_peaks :
  argsort_ok (w_argsort w) ->
  forall cs mcs idx mcs', (0 < idx)%nat -> combine_pair T bl em pf rec depth ax ay ae cs mcs idx = Some (Ok mcs') ->
    exists cl cr ml mr joined x1 x2 c',
      nth_error cs (idx - 1) = Some cl /\ nth_error cs idx = Some cr /\ nth_error mcs (idx - 1) = Some ml /\ nth_error mcs idx = Some mr /\
      join_adjacent w ml mr = Ok joined /\ pyget (adat ax) (snd cl) = Ok x1 /\ pyget (adat ax) (fst cr) = Ok x2 /\
      nth_error mcs' (idx - 1) = Some c' /\ length mcs = S (length mcs') /\
      (forall j, (j < idx - 1)%nat -> nth_error mcs' j = nth_error mcs j) /\ (forall j, (idx <= j)%nat -> nth_error mcs' j = nth_error mcs (S j)) /\
      (pos_sorted pos (c_model joined) -> exists near far fl fr, around pos (w_mid w x1 x2) (c_model joined) near far fl fr /\ refitted joined far c').
Proof.
  intros AS cs mcs idx mcs' HI E. unfold combine_pair in E.
  destruct (nth_error cs (idx - 1)) as [cl|] eqn:N1; [|discriminate]. destruct (nth_error cs idx) as [cr|] eqn:N2; [|discriminate].
  destruct (nth_error mcs (idx - 1)) as [ml|] eqn:N3; [|discriminate]. destruct (nth_error mcs idx) as [mr|] eqn:N4; [|discriminate].
  apply obind_ok in E as (new & EJ & E). apply lift_ok in EJ.
  apply obind_ok in E as (x1 & E1 & E). apply lift_ok in E1. apply obind_ok in E as (x2 & E2 & E). apply lift_ok in E2.
  apply obind_ok in E as (y1 & E3 & E). apply obind_ok in E as (y2 & E4 & E). cbv zeta in E.
  apply obind_ok in E as (a & _ & E). apply obind_ok in E as (a1 & _ & E). apply obind_ok in E as (a2 & _ & E). apply obind_ok in E as (rj & _ & E).
  apply obind_ok in E as (new' & ER & E). apply lift_ok in ER. assert (Em : del_at (upd mcs (idx - 1) new') idx = mcs') by congruence. clear E.
  exists cl, cr, ml, mr, new, x1, x2, new'. repeat (split; [first [reflexivity|assumption]|]).
  assert (LI : (idx < length mcs)%nat) by (apply nth_error_Some; congruence).
  assert (HS : exists pre post, mcs = pre ++ ml :: mr :: post /\ length pre = (idx - 1)%nat).
  { exists (firstn (idx - 1) mcs), (skipn (S idx) mcs). split; [|rewrite firstn_length; lia].
    rewrite <- (skipn_cons _ _ _ N4). replace idx with (S (idx - 1)) at 2 by lia. rewrite <- (skipn_cons _ _ _ N3). symmetry. apply firstn_skipn. }
  destruct HS as (pre & post & HM & HP). assert (ID : idx = S (length pre)) by lia. rewrite ID in Em. replace (S (length pre) - 1)%nat with (length pre) in Em by lia.
  rewrite HM in Em. rewrite (del_upd_merge pre post ml mr new') in Em. subst mcs'. rewrite ID, HM. replace (S (length pre) - 1)%nat with (length pre) by lia.
  split; [rewrite nth_error_app2, Nat.sub_diag by lia; reflexivity|]. split; [rewrite !app_length; cbn [length]; lia|].
  split; [intros j Hj; rewrite !nth_error_app1 by lia; reflexivity|].
  split. { intros j Hj. rewrite !nth_error_app2 by lia. replace (j - length pre)%nat with (S (j - length pre - 1)) by lia. replace (S j - length pre)%nat with (S (S (j - length pre - 1))) by lia. reflexivity. }
  intros SO. destruct (C96_neighbourhood_split new (w_mid w x1 x2) SO) as (fl & fr & A).
  eexists _, _, fl, fr. split; [exact A|]. eapply rebuild_refitted; eauto.
Qed.

(** The same for the recursion at an end of the data, on the cluster after a fit. *)
Theorem C96_boundary_keeps_distant_peaks :
  argsort_ok (w_argsort w) ->
  forall mcs k mcs', boundary T bl em pf rec depth ax ay ae mcs k = Some (Ok mcs') ->
    exists c c0 full border c',
      nth_error mcs k = Some c /\ copy_cluster w c = Ok c0 /\ fit_true T c0 = Ok full /\ pyget (adat ax) (Z.of_nat k) = Ok border /\
      nth_error mcs' k = Some c' /\ length mcs' = length mcs /\ (forall j, j <> k -> nth_error mcs' j = nth_error mcs j) /\
      (pos_sorted pos (c_model full) -> exists near far fl fr, around pos border (c_model full) near far fl fr /\ refitted full far c').
Proof.
  intros AS mcs k mcs' E. unfold boundary in E. destruct (nth_error mcs k) as [c|] eqn:N; [|discriminate].
  apply obind_ok in E as (c0 & E0 & E). apply lift_ok in E0. apply obind_ok in E as (full & EF & E). apply lift_ok in EF.
  apply obind_ok in E as (bx & EB & E). apply lift_ok in EB. apply obind_ok in E as (by_ & _ & E). cbv zeta in E.
  apply obind_ok in E as (a & _ & E). apply obind_ok in E as (a' & _ & E). apply obind_ok in E as (full' & ER & E). apply lift_ok in ER.
  assert (Em : upd mcs k full' = mcs') by congruence. clear E. subst mcs'.
  exists c, c0, full, bx, full'. repeat (split; [first [reflexivity|assumption]|]).
  assert (LK : (k < length mcs)%nat) by (apply nth_error_Some; congruence).
  split; [rewrite DataClustersProofs.nth_error_upd, Nat.eqb_refl, N; reflexivity|]. split; [apply DataClustersProofs.upd_length|]. split; [intros j Hj; rewrite DataClustersProofs.nth_error_upd; destruct (Nat.eqb_spec j k); [contradiction|reflexivity]|].
  intros SO. destruct (C96_neighbourhood_split full bx SO) as (fl & fr & A). eexists _, _, fl, fr. split; [exact A|]. eapply rebuild_refitted; eauto.
Qed.

(** ** C97 *)
(** Point number i of the data, at x, belongs to the interpeak range: between the
    next-nearest peaks on either side, or within the cluster where there is none. *)
Definition interpeak (c : cluster) (fl fr : list P) (i : nat) (x : Z) : Prop :=
  (fl = [] -> (c_start c <= i)%nat) /\ (forall p v, In p fl -> pos p = Some v -> v <= x) /\
  (fr = [] -> (i < c_stop c)%nat) /\ (forall p v, In p fr -> pos p = Some v -> x <= v).

(** The data refitted are the interpeak range, and at most one point more on the left and
    two on the right. *)
Theorem C97_interpeak_range :
  forall (c : cluster) border, pos_sorted pos (c_model c) -> DataClustersSpec.increasing (adat ax) ->
    let h := neighbourhood T ax c border in
    exists fl fr, around pos border (c_model c) (near_pk h) (other_pk h) fl fr /\
      forall i x, nth_error (adat ax) i = Some x ->
        (interpeak c fl fr i x -> (h_lo h <= i < h_hi h)%nat) /\
        ((h_lo h < i)%nat -> (i + 2 < h_hi h)%nat -> interpeak c fl fr i x).
Proof.
  intros c border SO INC h. pose proof (split_pivot c border SO) as A. cbv zeta in A. fold h in A.
  set (m := c_model c) in *. set (pivot := searchsorted_pos (map pos m) border) in *.
  exists (firstn (pivot - 1) m), (skipn (S pivot) m). split; [exact A|]. intros i x Hx.
  assert (LI : (i < length (adat ax))%nat) by (apply nth_error_Some; congruence).
  assert (PL : (pivot <= length m)%nat) by (unfold pivot; rewrite <- (map_length pos m); apply searchsorted_le).
  assert (MONO : forall j y, nth_error (adat ax) j = Some y -> (j <= i)%nat -> y <= x).
  { intros j y Hj Hji. destruct (Nat.eq_dec j i) as [->|]; [assert (y = x) by congruence; lia|]. apply Z.lt_le_incl. apply (INC j i); [lia|assumption|assumption]. }
  assert (MONO' : forall j y, nth_error (adat ax) j = Some y -> (i <= j)%nat -> x <= y).
  { intros j y Hj Hji. destruct (Nat.eq_dec i j) as [<-|]; [assert (y = x) by congruence; lia|]. apply Z.lt_le_incl. apply (INC i j); [lia|assumption|assumption]. }
  assert (SSLE : forall v, v <= x -> (searchsorted_left (adat ax) v <= i)%nat).
  { intros v Hv. destruct (Nat.le_gt_cases (searchsorted_left (adat ax) v) i) as [|G]; [assumption|].
    pose proof (DataClustersMore.ss_left_pre _ _ _ _ G Hx). lia. }
  assert (SSGE : forall v, (searchsorted_left (adat ax) v <= i)%nat -> v <= x).
  { intros v Hv. destruct (nth_error (adat ax) (searchsorted_left (adat ax) v)) as [y|] eqn:E; [|apply nth_error_None in E; lia].
    pose proof (DataClustersMore.ss_left_at _ _ _ E). pose proof (MONO _ _ E Hv). lia. }
  (* the left side *)
  assert (LFT : (((firstn (pivot - 1) m = [] -> (c_start c <= i)%nat) /\ (forall p v, In p (firstn (pivot - 1) m) -> pos p = Some v -> v <= x)) -> (h_lo h <= i)%nat) /\
                ((h_lo h < i)%nat -> (firstn (pivot - 1) m = [] -> (c_start c <= i)%nat) /\ (forall p v, In p (firstn (pivot - 1) m) -> pos p = Some v -> v <= x))).
  { unfold h, neighbourhood. fold m. fold pivot. cbv zeta. cbn [h_lo].
    destruct (Nat.leb_spec pivot 1) as [P1|P1].
    - replace (pivot - 1)%nat with 0%nat by lia. cbn [firstn]. split; [intros [H _]; specialize (H eq_refl); lia|].
      intros H. split; [lia|intros p v []].
    - destruct (nth_error m (pivot - 2)) as [q|] eqn:NQ; [|apply nth_error_None in NQ; lia].
      assert (FS : firstn (pivot - 1) m = firstn (pivot - 2) m ++ [q]) by (replace (pivot - 1)%nat with (S (pivot - 2)) by lia; apply firstn_snoc; exact NQ).
      assert (HQ : exists v, pos q = Some v /\ v < border).
      { destruct A as (l & r & _ & _ & _ & _ & _ & AL & _). apply AL. rewrite FS. apply in_or_app. left. apply in_or_app. right. left. reflexivity. }
      destruct HQ as (vq & EQ & _). rewrite EQ. cbn [ss]. split.
      + intros [_ H]. assert (vq <= x) by (apply (H q vq); [rewrite FS; apply in_or_app; right; left; reflexivity|exact EQ]). specialize (SSLE vq H0). lia.
      + intros H. split; [rewrite FS; intros D; destruct (firstn (pivot - 2) m); discriminate|].
        assert (VX : vq <= x) by (apply SSGE; lia).
        intros p v Hp Ev. apply In_nth_error in Hp as (j & Hj).
        assert (Lj : (j < pivot - 1)%nat). { assert (G : (j < length (firstn (pivot - 1) m))%nat) by (apply nth_error_Some; congruence). rewrite firstn_length in G. lia. }
        assert (Hj' : nth_error m j = Some p). { rewrite <- Hj. rewrite <- (firstn_skipn (pivot - 1) m) at 1. apply nth_error_app1. rewrite firstn_length. lia. }
        destruct (Nat.eq_dec j (pivot - 2)) as [->|]; [assert (q = p) by congruence; subst q; assert (v = vq) by congruence; lia|].
        pose proof (sorted_nth _ _ SO j (pivot - 2)%nat p q ltac:(lia) Hj' NQ) as LE. rewrite Ev, EQ in LE. cbn in LE. apply Z.leb_le in LE. lia. }
  assert (RGT : (((skipn (S pivot) m = [] -> (i < c_stop c)%nat) /\ (forall p v, In p (skipn (S pivot) m) -> pos p = Some v -> x <= v)) -> (i < h_hi h)%nat) /\
                ((i + 2 < h_hi h)%nat -> (skipn (S pivot) m = [] -> (i < c_stop c)%nat) /\ (forall p v, In p (skipn (S pivot) m) -> pos p = Some v -> x <= v))).
  { unfold h, neighbourhood. fold m. fold pivot. cbv zeta. cbn [h_hi].
    destruct (Nat.leb_spec (length m) (S pivot)) as [P1|P1].
    - rewrite (skipn_all2 m) by lia. split; [intros [H _]; specialize (H eq_refl); lia|].
      intros H. split; [lia|intros p v []].
    - destruct (nth_error m (S pivot)) as [q|] eqn:NQ; [|apply nth_error_None in NQ; lia].
      assert (FS : skipn (S pivot) m = q :: skipn (S (S pivot)) m) by (apply skipn_cons; exact NQ). split.
      + intros [_ H]. destruct (pos q) as [vq|] eqn:EQ; cbn [ss]; [|lia].
        assert (x <= vq) by (apply (H q vq); [rewrite FS; left; reflexivity|exact EQ]).
        destruct (Nat.le_gt_cases i (searchsorted_left (adat ax) vq)) as [|G]; [lia|].
        assert (vq <= x) by (apply SSGE; lia). assert (vq = x) by lia. subst vq.
        destruct (nth_error (adat ax) (searchsorted_left (adat ax) x)) as [y|] eqn:Ey; [|apply nth_error_None in Ey; lia].
        pose proof (DataClustersMore.ss_left_at _ _ _ Ey). pose proof (INC _ _ _ _ G Ey Hx). lia.
      + intros H. split; [rewrite FS; discriminate|]. intros p v Hp Ev. apply In_nth_error in Hp as (j & Hj).
        assert (Hj' : nth_error m (S pivot + j) = Some p). { rewrite <- Hj. rewrite <- (firstn_skipn (S pivot) m) at 1. rewrite nth_error_app2 by (rewrite firstn_length; lia). f_equal. rewrite firstn_length. lia. }
        assert (XQ : forall vq, pos q = Some vq -> x < vq).
        { intros vq EQ. rewrite EQ in H. cbn [ss] in H. apply (DataClustersMore.ss_left_pre (adat ax) vq i); [lia|exact Hx]. }
        destruct j as [|j]; [rewrite Nat.add_0_r in Hj'; assert (q = p) by congruence; subst q; specialize (XQ _ Ev); lia|].
        pose proof (sorted_nth _ _ SO (S pivot) (S pivot + S j)%nat q p ltac:(lia) NQ Hj') as LE. rewrite Ev in LE.
        destruct (pos q) as [vq|]; [|discriminate]. specialize (XQ _ eq_refl). cbn in LE. apply Z.leb_le in LE. lia. }
  unfold interpeak. tauto.
Qed.
End OneCall.
End Props.

Print Assumptions C96_neighbourhood_split.
Print Assumptions C96_combining_keeps_distant_peaks.
Print Assumptions C96_boundary_keeps_distant_peaks.
Print Assumptions C97_interpeak_range.

(** ** A concrete neighbourhood *)
Definition nmodel : list xpeak := [xp 1 8 true; xp 3 16 true; xp 4 8 true; xp 6 20 true; xp 8 5 true].
Definition ncluster : cluster xpeak Z := mkC nmodel (Some 0) (mkArr 0 vx) (mkArr 1 vy) (mkArr 2 ve) 0 10 false 0 0 [7%nat].
Example C97_nonvacuous :
  pos_sorted (w_position vworld) (c_model ncluster) /\ DataClustersSpec.increasing vx /\
  neighbourhood vtools (mkArr 0 vx) ncluster 4 = mkHood [xp 3 16 true; xp 4 8 true] [xp 1 8 true; xp 6 20 true; xp 8 5 true] 0 8.
Proof.
  split; [|split; [|vm_compute; reflexivity]].
  - unfold pos_sorted, ncluster, nmodel. cbn [c_model]. repeat constructor.
  - intros i j a b Hij Hi Hj. assert (Hl : (j < length vx)%nat) by (apply nth_error_Some; congruence). change (length vx) with 10%nat in Hl.
    assert (V : forall n, (n < 10)%nat -> nth_error vx n = Some (Z.of_nat n)) by (intros n Hn; do 10 (destruct n; [reflexivity|]); lia).
    rewrite V in Hi, Hj by lia. injection Hi as <-. injection Hj as <-. lia.
Qed.

(** Two clusters with three peaks each are combined: the four outer peaks are kept. *)
Definition nleft : cluster xpeak Z := mkC [xp 0 16 true; xp 2 32 true; xp 3 16 true] (Some 0) (mkArr 0 vx) (mkArr 1 vy) (mkArr 2 ve) 0 5 false 0 0 [7%nat].
Definition nright : cluster xpeak Z := mkC [xp 5 2 true; xp 6 20 true; xp 7 40 true] (Some 0) (mkArr 0 vx) (mkArr 1 vy) (mkArr 2 ve) 5 10 false 0 0 [7%nat].
Example C96_nonvacuous :
  match combine_pair vtools 0 0 [7%nat] (fun _ _ _ => Some (Err ValueError)) 3 (mkArr 0 vx) (mkArr 1 vy) (mkArr 2 ve) [(0, 4); (5, 9)] [nleft; nright] 1 with
  | Some (Ok [c]) => c_model c = [xp 0 16 true; xp 2 32 true; xp 3 16 true; xp 5 2 true; xp 6 20 true; xp 7 40 true] /\ (c_start c, c_stop c) = (0%nat, 10%nat)
  | _ => False
  end.
Proof. vm_compute. split; reflexivity. Qed.

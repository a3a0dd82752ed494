(** Properties C179-C185: what is prepared for display, and what showing it changes. *)
From Coq Require Import Reals Lra String.
From Verif Require Import Prelude ModelCluster ModelClusterProofs Residual ResidualProps Covariance CovarianceProofs CovarianceProps.
From Verif Require Import DataClusters DataClustersSpec DataClustersExamples DataClustersProps ModelClusterProps Stability StabilityProps Views.

Open Scope list_scope.

(** ** C179: the curves of a cluster *)
Section Curves.
Open Scope R_scope.
Notation length := List.length.
Definition baseline_at (c : mcluster) (t : R) : R := match mc_base c with None => 0 | Some b => fn_value (p_fn b) (p_pars b) t end.
Definition peak_at (p : part) (t : R) : R := fn_value (p_fn p) (p_pars p) t.
Definition sum_at (ps : list part) (t : R) : R := fold_right (fun p s => peak_at p t + s) 0 ps.
(** the grid and the data of the cluster *)
Definition window (c : mcluster) (l : list R) : list R := firstn (snd (mc_slice c) - fst (mc_slice c)) (skipn (fst (mc_slice c)) l).

Lemma rc_window c : mc_rc c = window c (mc_r c). Proof. unfold mc_rc, mc_rng, window. destruct (mc_slice c). reflexivity. Qed.
Lemma yc_window c : mc_yc c = window c (mc_y c). Proof. unfold mc_yc, mc_rng, window. destruct (mc_slice c). reflexivity. Qed.
Lemma cut_part p r g : Residual.cut g (part_value p r g) = map (peak_at p) (Residual.cut g r).
Proof. unfold part_value. rewrite cut_embed; [reflexivity|]. apply map_length. Qed.
Lemma valuebl_map c : mc_valuebl c = map (baseline_at c) (mc_rc c).
Proof.
  unfold mc_valuebl, baseline_at. destruct (mc_base c) as [b|]; [rewrite cut_part; reflexivity|]. induction (mc_rc c) as [|a l IH]; [reflexivity|]. cbn. now rewrite IH.
Qed.
Lemma sum_model ps t : model_at ps t = sum_at ps t.
Proof.
  unfold model_at, sum_at. induction ps as [|p ps IH]; [reflexivity|]. cbn [map fold_right]. now rewrite IH.
Qed.
Lemma value_map c : mc_value c = map (fun t => baseline_at c t + sum_at (mc_peaks c) t) (mc_rc c).
Proof.
  unfold mc_value. rewrite valuebl_map. destruct (mc_peaks c) as [|p ps] eqn:E.
  - apply map_ext. intros t. cbn. lra.
  - rewrite cut_value. fold (mc_rc c). rewrite add_map. apply map_ext. intros t. now rewrite sum_model.
Qed.
Lemma put_curves_spec c bl ps : forall i pre l, length pre = (2 * i + 2)%nat -> put_curves c bl i ps (pre ++ repeat l (2 * length ps)) =
  pre ++ flat_map (fun p => [l; add_lists bl (Residual.cut (mc_rng c) (part_value p (mc_r c) (mc_rng c)))]) ps.
Proof.
  induction ps as [|p ps IH]; intros i pre l L; [reflexivity|]. cbn [put_curves length flat_map].
  replace (2 * S (length ps))%nat with (S (S (2 * length ps))) by lia. cbn [repeat].
  set (v := add_lists bl _).
  assert (U : upd (pre ++ l :: l :: repeat l (2 * length ps)) (2 * i + 3) v = (pre ++ [l; v]) ++ repeat l (2 * length ps)).
  { rewrite <- app_assoc. cbn [app]. replace (2 * i + 3)%nat with (length pre + 1)%nat by lia. generalize (repeat l (2 * length ps)). generalize v. clear. intros v t. induction pre as [|a pre IHp]; [reflexivity|]. cbn. now rewrite IHp. }
  rewrite U, IH by (rewrite app_length; cbn [length]; lia). rewrite <- app_assoc. reflexivity.
Qed.

(** Curves come in pairs of a grid and values on it.  The first pair is the data of the cluster.
    Separately, one pair per peak in order: baseline plus that peak; joined, one pair: baseline
    plus all peaks. *)
Theorem C179_plottable :
  forall c,
    plottable c false = window c (mc_r c) :: window c (mc_y c) ::
      flat_map (fun p => [window c (mc_r c); map (fun t => baseline_at c t + peak_at p t) (window c (mc_r c))]) (mc_peaks c) /\
    plottable c true = [window c (mc_r c); window c (mc_y c); window c (mc_r c); map (fun t => baseline_at c t + sum_at (mc_peaks c) t) (window c (mc_r c))].
Proof.
  intros c. rewrite <- rc_window, <- yc_window. split.
  - unfold plottable. rewrite put_curves_spec by reflexivity. cbn [app]. do 2 f_equal. rewrite valuebl_map. apply flat_map_ext. intros p. rewrite cut_part. fold (mc_rc c). now rewrite add_map.
  - unfold plottable. now rewrite value_map.
Qed.
(** The residual is what the joined curve leaves of the data. *)
Lemma sub_nth a : forall b k x y, nth_error a k = Some x -> nth_error b k = Some y -> nth_error (sub_lists a b) k = Some (x - y).
Proof. induction a as [|u a IH]; intros [|v b] [|k] x y; cbn; try discriminate; [intros [= ->] [= ->]; reflexivity|apply IH]. Qed.
Lemma sub_len a : forall b, length b = length a -> length (sub_lists a b) = length a.
Proof. induction a as [|u a IH]; intros [|v b]; cbn; try discriminate; [reflexivity|]. intros H. f_equal. apply IH. lia. Qed.
Theorem C179_residual :
  forall c, length (mc_y c) = length (mc_r c) ->
    exists res, plottable_residual c = [window c (mc_r c); res] /\ length res = length (window c (mc_r c)) /\
      forall k t y, nth_error (window c (mc_r c)) k = Some t -> nth_error (window c (mc_y c)) k = Some y ->
        nth_error res k = Some (y - (baseline_at c t + sum_at (mc_peaks c) t)).
Proof.
  intros c L. exists (mc_residual c). unfold plottable_residual. rewrite rc_window. split; [reflexivity|].
  assert (LW : length (window c (mc_y c)) = length (window c (mc_r c))) by (unfold window; rewrite !firstn_length, !skipn_length, L; reflexivity).
  unfold mc_residual. rewrite value_map, yc_window, rc_window. split; [rewrite sub_len; [exact LW|rewrite map_length; lia]|].
  intros k t y Ht Hy. apply sub_nth; [exact Hy|]. rewrite nth_error_map, Ht. reflexivity.
Qed.

(** ** C180 *)
(** Violated: plot(joined=False) shows what plot(joined=True) shows; only plot() without any
    keyword shows the peaks separately.  With two or more peaks those differ. *)
Theorem C180_joined_ignored_refuted :
  forall c : mcluster, extraction_plot c [("joined"%string, KFalse)] = plottable c true /\ extraction_plot c [("joined"%string, KTrue)] = plottable c true /\
    extraction_plot (K := String.string) c [] = plottable c false /\
    (length (mc_peaks c) <> 1%nat -> plottable c true <> plottable c false).
Proof.
  intros c. split; [reflexivity|]. split; [reflexivity|]. split; [reflexivity|]. intros N E. apply (f_equal (@length (list R))) in E.
  destruct (C179_plottable c) as (A & Bq). rewrite A, Bq in E. cbn [length] in E. destruct (mc_peaks c) as [|p [|q l]]; cbn in *; lia.
Qed.

(** ** C181: the text of a covariance *)
Lemma pretty_row_ok c i (f : nat -> shown) js : (forall j, In j js -> prettypar c (KPar i j) = Ok (f j)) -> pretty_row c i js = Ok (map f js).
Proof. induction js as [|j js IH]; intros H; [reflexivity|]. cbn [pretty_row map]. rewrite (H j (or_introl eq_refl)). cbn [bind]. rewrite IH by (intros; apply H; now right). reflexivity. Qed.
(** Every parameter is shown, part by part, with its value and the square root of its
    variance; that is what get() returns.  Numbers and pairs give the same text. *)
Theorem C181_text :
  forall m v c, setcovariance new_covar m v = (c, Ok tt) ->
    (forall n p x part val, names m n p x -> nth_error m p = Some part -> nth_error (cp_pars part) x = Some val ->
       exists u, get c (KPar p x) = Ok (val, u) /\ prettypar c (KPar p x) = Ok (Pair val u) /\ prettypar c (KInt (Z.of_nat n)) = Ok (Pair val u)) /\
    exists rows, cov_str c = Ok (Some rows) /\ length rows = length m /\
      forall p part, nth_error m p = Some part -> exists row, nth_error rows p = Some row /\ length row = length (cp_pars part) /\
        forall x val, nth_error (cp_pars part) x = Some val -> exists u, nth_error row x = Some (Pair val u) /\ get c (KPar p x) = Ok (val, u).
Proof.
  intros m v c E. destruct (C44_lookups m v c E) as (full & Ef & Rf & Cf & _ & V & CV & _).
  destruct (fresh_maps m v c E) as (_ & _ & Em & _ & P1 & _ & I1 & _).
  assert (PP : forall n p x part val, names m n p x -> nth_error m p = Some part -> nth_error (cp_pars part) x = Some val ->
       get c (KPar p x) = Ok (val, Num (sqrt (Covariance.at_ full n n))) /\ prettypar c (KPar p x) = Ok (Pair val (Num (sqrt (Covariance.at_ full n n)))) /\ prettypar c (KInt (Z.of_nat n)) = Ok (Pair val (Num (sqrt (Covariance.at_ full n n))))).
  { intros n p x part val N Hp Hv. destruct (V n p x part val N Hp Hv) as (V1 & V2 & _ & _ & G). destruct (CV n p x n p x N N) as (_ & C2). split; [exact G|].
    apply names_npar in N as (Nx & En). 
    assert (K : prettypar c (KInt (Z.of_nat n)) = Ok (Pair val (Num (sqrt (Covariance.at_ full n n))))).
    { unfold prettypar. rewrite Em, Ef. rewrite (proj2 (Z.ltb_ge _ 0)) by lia. rewrite Nat2Z.id, En, I1 by exact Nx. rewrite <- En. cbn [bind]. rewrite V2. cbn [bind]. rewrite C2. reflexivity. }
    split; [|exact K]. unfold prettypar in *. rewrite Em, Ef in *. rewrite P1 by exact Nx. rewrite <- En. cbn [bind]. rewrite V2. cbn [bind]. rewrite C2. reflexivity. }
  split; [intros n p x part val N Hp Hv; eexists; exact (PP n p x part val N Hp Hv)|].
  unfold cov_str. rewrite Em, Ef.
  assert (ROWS : forall rest k, (forall p part, nth_error rest p = Some part -> nth_error m (k + p) = Some part) ->
    exists rows, pretty_rows c k rest = Ok rows /\ length rows = length rest /\
      forall p part, nth_error rest p = Some part -> exists row, nth_error rows p = Some row /\ length row = length (cp_pars part) /\
        forall x val, nth_error (cp_pars part) x = Some val -> exists u, nth_error row x = Some (Pair val u) /\ get c (KPar (k + p) x) = Ok (val, u)).
  { induction rest as [|q rest IH]; intros k H.
    - exists []. split; [reflexivity|]. split; [reflexivity|]. intros p part Hp. destruct p; discriminate.
    - destruct (IH (S k)) as (rows & E1 & L1 & H1). { intros p part Hp. replace (S k + p)%nat with (k + S p)%nat by lia. now apply H. }
      assert (Hq : nth_error m k = Some q) by (rewrite <- (Nat.add_0_r k); now apply H).
      assert (NP : npar m k = length (cp_pars q)) by (unfold npar; rewrite Hq; reflexivity).
      set (f := fun j => Pair (nth j (cp_pars q) 0) (Num (sqrt (Covariance.at_ full (offset m k + j) (offset m k + j))))).
      assert (RW : pretty_row c k (seq 0 (cp_npars q)) = Ok (map f (seq 0 (cp_npars q)))).
      { apply pretty_row_ok. intros j Hj. apply in_seq in Hj. unfold cp_npars in Hj.
        assert (Hv : nth_error (cp_pars q) j = Some (nth j (cp_pars q) 0)) by (apply nth_error_nth'; lia).
        apply (PP (offset m k + j)%nat k j q _); [apply names_npar; split; [lia|reflexivity]|exact Hq|exact Hv]. }
      exists (map f (seq 0 (cp_npars q)) :: rows). cbn [pretty_rows]. rewrite RW. cbn [bind]. rewrite E1. cbn [bind]. split; [reflexivity|]. split; [cbn [length]; lia|].
      intros [|p] part Hp.
      + cbn in Hp. injection Hp as <-. eexists. split; [reflexivity|]. split; [rewrite map_length, seq_length; reflexivity|]. intros x val Hx.
        assert (Lx : (x < length (cp_pars q))%nat) by (apply nth_error_Some; congruence).
        exists (Num (sqrt (Covariance.at_ full (offset m k + x) (offset m k + x)))). split.
        * rewrite nth_error_map. unfold cp_npars. rewrite (nth_error_nth' (seq 0 (length (cp_pars q))) 0%nat) by (rewrite seq_length; exact Lx). rewrite seq_nth by exact Lx. cbn [option_map]. unfold f. rewrite (nth_error_nth _ _ _ Hx). reflexivity.
        * rewrite Nat.add_0_r. apply (PP (offset m k + x)%nat k x q val); [apply names_npar; split; [lia|reflexivity]|exact Hq|exact Hx].
      + cbn in Hp. destruct (H1 p part Hp) as (row & A1 & A2 & A3). exists row. split; [exact A1|]. split; [exact A2|]. intros x val Hx. destruct (A3 x val Hx) as (u & U1 & U2). exists u. split; [exact U1|]. replace (k + S p)%nat with (S k + p)%nat by lia. exact U2. }
  destruct (ROWS m 0%nat) as (rows & E1 & L1 & H1); [auto|]. rewrite E1. cbn [bind]. exists rows. split; [reflexivity|]. split; [exact L1|exact H1].
Qed.
(** Without a covariance both texts say so. *)
Theorem C181_undefined : forall c k, cv_model c = None \/ cv_cov c = None -> prettypar c k = Ok Undefined /\ cov_str c = Ok None.
Proof. intros c k [H|H]; unfold prettypar, cov_str; rewrite H; [split; reflexivity|destruct (cv_model c); split; reflexivity]. Qed.
End Curves.

(** ** C182, C183: boundaries of clusters *)
Section Boundaries.
Open Scope Z_scope.
Notation length := List.length.
Lemma insert_unique_ne v l : insert_unique v l <> [].
Proof. destruct l as [|w l]; [discriminate|]. cbn. destruct v, w; try discriminate. destruct (_ <? _); [discriminate|]. destruct (_ =? _); discriminate. Qed.
Lemma insert_unique_in v l x : In x (insert_unique v l) <-> x = v \/ In x l.
Proof.
  induction l as [|w l IH]; [cbn; firstorder congruence|]. cbn [insert_unique]. destruct v as [a|], w as [b|].
  - destruct (a <? b); [cbn; intuition congruence|]. destruct (Z.eqb_spec a b) as [->|]; [cbn; intuition congruence|]. cbn [In]. rewrite IH. intuition congruence.
  - cbn. intuition congruence.
  - cbn [In]. rewrite IH. intuition congruence.
  - cbn. intuition congruence.
Qed.
Lemma unique_in l x : In x (unique l) <-> In x l.
Proof. induction l as [|a l IH]; [reflexivity|]. change (unique (a :: l)) with (insert_unique a (unique l)). rewrite insert_unique_in, IH. cbn. intuition congruence. Qed.
Lemma insert_len v l : (length (insert_unique v l) <= S (length l))%nat.
Proof. induction l as [|w l IH]; [cbn; lia|]. cbn [insert_unique]. destruct v as [a|], w as [b|]; [destruct (a <? b); [cbn; lia|]; destruct (a =? b); cbn [length] in *; lia|cbn; lia|cbn [length] in *; lia|cbn; lia]. Qed.
Lemma pyslice_left (l : list Z) : (2 <= length l)%nat -> pyslice l (0 - 1) (0 + 1) = [].
Proof.
  intros L. unfold pyslice, slice_bounds, clamp. change (0 - 1 <? 0) with true. change (0 + 1 <? 0) with false. cbv iota.
  unfold ModelCluster.slice. replace (Nat.max _ _ - _)%nat with 0%nat by lia. reflexivity.
Qed.

(** Violated: the result is not a sequence of pairs.  It is one list of numbers, each of them an
    x or a y coordinate of a boundary, and the first cluster of completely clustered data has
    NaN for its lower boundary. *)
Theorem C182_boundaries_refuted :
  forall s, (forall v, In v (cluster_boundaries s) <-> exists x y, In (x, y) (boundary_pairs s) /\ (v = x \/ v = y)) /\
    (forall hi, In (0, hi) (clusters s) -> (2 <= length (xs s))%nat -> (2 <= length (ys s))%nat -> In (None, None) (boundary_pairs s) /\ In None (cluster_boundaries s)).
Proof.
  intros s.
  assert (A : forall v, In v (cluster_boundaries s) <-> exists x y, In (x, y) (boundary_pairs s) /\ (v = x \/ v = y)).
  { intros v. unfold cluster_boundaries. rewrite unique_in, in_flat_map. split.
    - intros ((x & y) & H & Hv). exists x, y. split; [exact H|]. cbn in Hv. intuition.
    - intros (x & y & H & Hv). exists (x, y). split; [exact H|]. cbn. intuition. }
  split; [exact A|]. intros hi Hc Lx Ly.
  assert (P : In (None, None) (boundary_pairs s)).
  { unfold boundary_pairs. apply in_flat_map. exists (0, hi). split; [exact Hc|]. cbn [fst snd]. rewrite !pyslice_left by assumption. now left. }
  split; [exact P|]. apply A. exists None, None. auto.
Qed.
(** The boundaries themselves, before np.unique, are right: between two neighbouring clusters
    both report the same point, half way between the last point of one and the first of the other. *)
Lemma pyslice_two (l : list Z) i a b : 0 <= i -> nth_error l (Z.to_nat i) = Some a -> nth_error l (S (Z.to_nat i)) = Some b -> pyslice l i (i + 2) = [a; b].
Proof.
  intros H A B. assert (L : (S (Z.to_nat i) < length l)%nat) by (apply nth_error_Some; congruence).
  unfold pyslice, slice_bounds, clamp. rewrite (proj2 (Z.ltb_ge i 0)), (proj2 (Z.ltb_ge (i + 2) 0)) by lia. rewrite !Z.min_l by lia.
  unfold ModelCluster.slice. replace (Nat.max _ _ - _)%nat with 2%nat by lia.
  generalize dependent (Z.to_nat i). clear. intros n. revert n. induction l as [|x l IH]; intros [|n]; cbn; try discriminate.
  - intros [= ->] B L. destruct l as [|y l]; [discriminate|]. cbn in B. injection B as ->. reflexivity.
  - intros A B L. apply IH; try assumption. lia.
Qed.
Theorem C182_shared_boundary :
  forall s lo hi lo' hi' x1 x2 y1 y2, In (lo, hi) (clusters s) -> In (lo', hi') (clusters s) -> 0 <= hi -> lo' = hi + 1 ->
    nth_error (xs s) (Z.to_nat hi) = Some x1 -> nth_error (xs s) (Z.to_nat lo') = Some x2 -> nth_error (ys s) (Z.to_nat hi) = Some y1 -> nth_error (ys s) (Z.to_nat lo') = Some y2 ->
    In (Some (x1 + x2), Some (y1 + y2)) (boundary_pairs s) /\ boundary_pairs s <> [].
Proof.
  intros s lo hi lo' hi' x1 x2 y1 y2 H1 H2 H0 E X1 X2 Y1 Y2. assert (I : In (Some (x1 + x2), Some (y1 + y2)) (boundary_pairs s)).
  { unfold boundary_pairs. apply in_flat_map. exists (lo, hi). split; [exact H1|]. cbn [fst snd]. rewrite E in X2, Y2. replace (Z.to_nat (hi + 1)) with (S (Z.to_nat hi)) in X2, Y2 by lia.
    rewrite (pyslice_two _ _ _ _ H0 X1 X2), (pyslice_two _ _ _ _ H0 Y1 Y2). right. now left. }
  split; [exact I|]. intros C. now rewrite C in I.
Qed.

(** Violated: as soon as there is a cluster, plot raises; and animate raises after its first step
    and leaves the clustering there instead of restoring it. *)
Lemma draw_raises s : clusters s <> [] -> draw_boundaries s = Err IndexError.
Proof.
  intros NE. unfold draw_boundaries. destruct (cluster_boundaries s) as [|b l] eqn:E; [|reflexivity]. exfalso.
  destruct (clusters s) as [|c cs] eqn:Ec; [contradiction|]. destruct (C182_boundaries_refuted s) as (A & _). rewrite E in A.
  assert (I : exists q, In q (boundary_pairs s)) by (unfold boundary_pairs; rewrite Ec; cbn; eexists; now left). destruct I as ((x & y) & I). apply (A x). exists x, y. auto.
Qed.
Lemma insert_at_ne {A} (l : list A) k a : insert_at l k a <> [].
Proof. unfold insert_at. destruct (firstn k l); discriminate. Qed.
Lemma next_nonempty rnd s s' : clusters s <> [] -> next rnd s = (s', Ok tt) -> clusters s' <> [].
Proof.
  intros NE E. unfold next in E. destruct (st s); try discriminate; (destruct (scan _ _ _ _ _) as [((c', t) & (nc & d))|]; [|discriminate]; destruct (_ && _); [discriminate|]; destruct t as [ti|]; [|discriminate];
   destruct (_ <=? _); [destruct (nth_error (clusters s) nc) as [(lo & hi)|]; [|discriminate]; injection E as <-; cbn [clusters]; destruct (clusters s); [contradiction|]; destruct nc; discriminate|injection E as <-; cbn [clusters]; apply insert_at_ne]).
Qed.
Theorem C183_plot_refuted :
  forall s, clusters s <> [] -> draw_boundaries s = Err IndexError.
Proof. exact draw_raises. Qed.
Theorem C183_animate_refuted :
  forall rnd s s1 s2 fuel, reset_clusters s = (s1, Ok tt) -> next rnd s1 = (s2, Ok tt) -> animate rnd (S fuel) s = Some (s2, Err IndexError).
Proof.
  intros rnd s s1 s2 fuel R N. unfold animate. rewrite R. cbn [animate_loop]. rewrite N. rewrite draw_raises; [reflexivity|]. apply (next_nonempty rnd s1); [|exact N].
  unfold reset_clusters in R. destruct (pyget _ _); [|discriminate]. injection R as <-. discriminate.
Qed.
End Boundaries.

(** ** C184, C185: showing stored results *)
Section Animation.
Open Scope Z_scope.
Notation length := List.length.
Context {P B Q D X : Type}.
Variable w : world P B Q.
Notation ppe := (@ppe P B X). Notation stab := (@stab P B D X).
Variable resample : ppe -> D -> result (array * array * array).
Variable draw : stab -> result unit.
Notation setcurrent := (setcurrent w resample).
(** Resampling uses the data and settings of the extracter, not what was extracted before. *)
Definition ignores_extracted : Prop := forall p x d, resample (set_ext p x) d = resample p d.
(** Same results, settings and objects; what is selected, the uncertainty and what is extracted may differ *)
Definition same_frame (s t : stab) : Prop :=
  s_models t = s_models s /\ s_bases t = s_bases s /\ s_results t = s_results s /\ p_x (s_ppe t) = p_x (s_ppe s) /\ p_em (s_ppe t) = p_em (s_ppe s) /\ p_pf (s_ppe t) = p_pf (s_ppe s) /\ p_base (s_ppe t) = p_base (s_ppe s) /\ p_rest (s_ppe t) = p_rest (s_ppe s).
Lemma same_frame_refl s : same_frame s s. Proof. repeat split. Qed.
Lemma same_frame_trans s t u : same_frame s t -> same_frame t u -> same_frame s u.
Proof. unfold same_frame. intros (a1 & a2 & a3 & a4 & a5 & a6 & a7 & a8) (b1 & b2 & b3 & b4 & b5 & b6 & b7 & b8). repeat split; congruence. Qed.
Lemma setcurrent_frame s i : same_frame s (fst (setcurrent s i)).
Proof.
  unfold Stability.setcurrent. destruct i as [i|]; [|repeat split]. cbn [set_current s_results]. destruct (pyget (s_results s) i) as [r|]; [|repeat split].
  destruct (resample _ _) as [((rr & yy) & dy)|]; [|repeat split]. destruct (nth_error (s_models s) _); [|repeat split]. destruct (nth_error (s_bases s) _); [|repeat split]. destruct (make_cluster _ _ _ _ _ _ _ _ _); repeat split.
Qed.
Lemma show_all_frame l : forall s, same_frame s (fst (show_all w resample draw s l)).
Proof.
  induction l as [|i l IH]; intros s; [apply same_frame_refl|]. cbn [show_all]. pose proof (setcurrent_frame s (Some i)) as F. destruct (setcurrent s (Some i)) as [s1 [u|e]]; [|exact F]. cbn [fst] in F.
  destruct (draw s1); [|exact F]. exact (same_frame_trans _ _ _ F (IH s1)).
Qed.
(** What setcurrent(i) leaves depends only on the frame. *)
Lemma setcurrent_same s t i : ignores_extracted -> same_frame s t -> snd (setcurrent s (Some i)) = Ok tt -> setcurrent t (Some i) = setcurrent s (Some i).
Proof.
  intros IG (a1 & a2 & a3 & a4 & a5 & a6 & a7 & a8) OK. unfold Stability.setcurrent in *. cbn [set_current s_results s_ppe s_models s_bases] in *. rewrite a3, a1, a2.
  destruct (pyget (s_results s) i) as [r|]; [|discriminate].
  assert (RS : resample (set_edy (s_ppe t) (r_err r)) (r_dr r) = resample (set_edy (s_ppe s) (r_err r)) (r_dr r)).
  { rewrite <- (IG (set_edy (s_ppe t) (r_err r)) None), <- (IG (set_edy (s_ppe s) (r_err r)) None). unfold set_edy, set_ext. cbn [p_x p_edy p_em p_pf p_base p_rest]. now rewrite a4, a5, a6, a7, a8. }
  rewrite RS. destruct (resample _ _) as [((rr & yy) & dy)|]; [|discriminate]. destruct (nth_error (s_models s) _) as [m|]; [|discriminate]. destruct (nth_error (s_bases s) _) as [b|]; [|discriminate].
  unfold set_edy, set_ext, set_ppe, set_current in *. cbn [p_x p_edy p_em p_pf p_base p_rest p_ext s_models s_bases s_results s_ppe s_current] in *. rewrite a4, a5, a6, a7, a8.
  destruct (make_cluster _ _ _ _ _ _ _ _ _); [|discriminate]. cbn [s_models s_bases s_results s_current]. now rewrite a1, a2, a3.
Qed.

(** If a stored result is selected (the state is what setcurrent(i) leaves), a complete
    animation of any results restores that state exactly. *)
Theorem C184_restored :
  forall s0 s i l s', ignores_extracted -> setcurrent s0 (Some i) = (s, Ok tt) -> animate_stab w resample draw s l = (s', Ok tt) -> s' = s.
Proof.
  intros s0 s i l s' IG E A. unfold animate_stab in A.
  assert (CU : s_current s = Some i).
  { unfold Stability.setcurrent in E. cbn [set_current s_results s_ppe] in E. destruct (pyget _ i) as [r|]; [|discriminate]. destruct (resample _ _) as [((rr & yy) & dy)|]; [|discriminate]. destruct (nth_error (s_models s0) _); [|discriminate]. destruct (nth_error (s_bases s0) _); [|discriminate]. destruct (make_cluster _ _ _ _ _ _ _ _ _); [|discriminate]. injection E as <-. reflexivity. }
  assert (F0 : same_frame s0 s) by (pose proof (setcurrent_frame s0 (Some i)) as H; rewrite E in H; exact H).
  pose proof (setcurrent_frame s (Some 0)) as F1. destruct (setcurrent s (Some 0)) as [s1 [u1|]]; [|discriminate]. cbn [fst] in F1.
  destruct (draw s1); [|discriminate]. set (ll := match l with Some l => l | None => _ end) in A. pose proof (show_all_frame ll s1) as F2. destruct (show_all w resample draw s1 ll) as [s2 [u2|]]; [|discriminate]. cbn [fst] in F2.
  rewrite CU in A. rewrite (setcurrent_same s0 s2 i IG) in A; [congruence| |rewrite E; reflexivity].
  exact (same_frame_trans _ _ _ (same_frame_trans _ _ _ F0 F1) F2).
Qed.
(** In any case the stored results and the settings stay. *)
Theorem C184_results_kept :
  forall s l, same_frame s (fst (animate_stab w resample draw s l)).
Proof.
  intros s l. unfold animate_stab. pose proof (setcurrent_frame s (Some 0)) as F1. destruct (setcurrent s (Some 0)) as [s1 [u1|]]; [|exact F1]. cbn [fst] in F1.
  destruct (draw s1); [|exact F1]. set (ll := match l with Some l => l | None => _ end). pose proof (show_all_frame ll s1) as F2. destruct (show_all w resample draw s1 ll) as [s2 [u2|]]; cbn [fst] in *.
  - exact (same_frame_trans _ _ _ (same_frame_trans _ _ _ F1 F2) (setcurrent_frame s2 _)). - exact (same_frame_trans _ _ _ F1 F2).
Qed.
(** Violated: if no stored result is selected, as after run(), a complete animation throws the
    extraction away, ... *)
Theorem C185_nothing_selected_refuted :
  forall s l s', s_current s = None -> animate_stab w resample draw s l = (s', Ok tt) -> p_ext (s_ppe s') = None.
Proof.
  intros s l s' C A. unfold animate_stab in A. destruct (setcurrent s (Some 0)) as [s1 [u1|]]; [|discriminate]. destruct (draw s1); [|discriminate].
  destruct (show_all w resample draw s1 _) as [s2 [u2|]]; [|discriminate]. rewrite C in A. unfold Stability.setcurrent in A. injection A as <-. reflexivity.
Qed.
(** ... without results it raises and selects the result 0, which does not exist, ... *)
Theorem C185_no_results_refuted :
  forall s l, s_results s = [] -> exists s', animate_stab w resample draw s l = (s', Err IndexError) /\ s_current s' = Some 0.
Proof.
  intros s l E. unfold animate_stab, Stability.setcurrent. cbn [set_current s_results]. rewrite E. cbn. eexists. split; reflexivity.
Qed.
(** ... and after an index that does not exist the selection is that index. *)
Theorem C185_bad_index_refuted :
  forall s s1 i l, setcurrent s (Some 0) = (s1, Ok tt) -> draw s1 = Ok tt -> Z.of_nat (length (s_results s)) <= i ->
    exists s', animate_stab w resample draw s (Some (i :: l)) = (s', Err IndexError) /\ s_current s' = Some i.
Proof.
  intros s s1 i l E DR H. unfold animate_stab. rewrite E, DR. cbn [show_all].
  assert (F : same_frame s s1) by (pose proof (setcurrent_frame s (Some 0)) as G; rewrite E in G; exact G). destruct F as (_ & _ & F & _).
  rewrite <- F in H. destruct (C92_bad_index_refuted w resample s1 i H) as (B1 & B2 & _). destruct (setcurrent s1 (Some i)) as [s2 r]. cbn [fst snd] in *. subst r. eexists. split; [reflexivity|exact B2].
Qed.
End Animation.

(** ** The hypotheses are met *)
(** two constant peaks of heights 2 and 5 on a line, shown over the middle of four points *)
Definition flat (h : R) : part := mkPart (mkFunc 1 (fun pars _ => hd 0%R pars) (fun _ _ _ => Ok [])) [h] [true].
Definition view : mcluster := (mkMc [flat 2; flat 5] (Some (flat 1)) [0; 1; 2; 3] [7; 9; 8; 7] (1%nat, 3%nat))%R.
Example C179_example : (plottable view false = [[1; 2]; [9; 8]; [1; 2]; [1 + 2; 1 + 2]; [1; 2]; [1 + 5; 1 + 5]])%R.
Proof. rewrite (proj1 (C179_plottable view)). reflexivity. Qed.
Example C181_example : snd (setcovariance new_covar [mkCp 0 [1; 2] [true; true]; mkCp 1 [3] [false]] (mkMat 2 2 (fun i j => if Nat.eqb i j then 4 else 1)))%R = Ok tt.
Proof. reflexivity. Qed.
(** a half-clustered data set: the animation ends in another state *)
Example C183_example :
  let s := steps 3 (ex_new 12) in
  exists s2, animate (fun z => z) 99 s = Some (s2, Err IndexError) /\ clusters s2 <> clusters s /\ cluster_boundaries s <> [].
Proof. cbv zeta. eexists. split; [vm_compute; reflexivity|]. split; vm_compute; discriminate. Qed.
Example C184_example :
  let a := fst (srun s0 [3; 1]) in
  ignores_extracted sresample /\ s_current a = None /\ p_ext (s_ppe a) <> None /\
  snd (setcurrent (xworld idle) sresample a (Some 1)) = Ok tt /\
  animate_stab (xworld idle) sresample (fun _ => Ok tt) (fst (setcurrent (xworld idle) sresample a (Some 1))) None = setcurrent (xworld idle) sresample a (Some 1) /\
  (exists s', animate_stab (xworld idle) sresample (fun _ => Ok tt) a (Some [0; 1]) = (s', Ok tt)).
Proof.
  cbv zeta. split; [intros p x d; reflexivity|]. split; [vm_compute; reflexivity|]. split; [vm_compute; discriminate|]. split; [vm_compute; reflexivity|]. split; [vm_compute; reflexivity|]. eexists. vm_compute. reflexivity.
Qed.

(** Properties C14 (cluster part), C37-C41, C45. *)
From Coq Require Import Permutation Sorted.
From Verif Require Import Prelude ModelCluster ModelClusterProofs.
Open Scope Z_scope.

Section Props.
Set Default Proof Using "Type".
Context {P B Q : Type}.
Variable w : world P B Q.
Notation cluster := (cluster P B).

(** ** C14, cluster part *)
Theorem C14_cluster_npars :
  forall (c : cluster) cf,
    npars w c false cf = model_npars w cf (c_model c) /\
    npars w c true cf = (npars w c false cf + match c_base c with None => 0 | Some b => w_b_npars w cf b end)%nat /\
    ((forall p, In p (c_model c) -> (w_p_npars w false p <= w_p_npars w true p)%nat) ->
     (forall b, c_base c = Some b -> (w_b_npars w false b <= w_b_npars w true b)%nat) ->
     forall cb, (npars w c cb false <= npars w c cb true)%nat).
Proof.
  intros c cf. split; [unfold npars; lia|]. split; [unfold npars; lia|]. intros HP HB cb. unfold npars, model_npars.
  assert (L : (list_sum_nat (map (w_p_npars w false) (c_model c)) <= list_sum_nat (map (w_p_npars w true) (c_model c)))%nat).
  { induction (c_model c) as [|p l IH]; [reflexivity|]. cbn. pose proof (HP p (or_introl eq_refl)).
    specialize (IH ltac:(intros; apply HP; now right)). unfold list_sum_nat in IH. lia. }
  destruct cb; [|lia]. destruct (c_base c) as [b|]; [|lia]. specialize (HB b eq_refl). lia.
Qed.

(** ** C38 *)
Theorem C38_replace :
  argsort_ok (w_argsort w) ->
  forall pre sel post new,
    let m := pre ++ sel ++ post in
    let '(m', out) := replacepeaks w m new (Some (Z.of_nat (length pre))) (Some (Z.of_nat (length pre + length sel))) in
    (* refused, and nothing changed *)
    (((exists p, In p sel /\ w_removable w p = false) /\ out = Err ValueError /\ m' = m) \/
    (* or exactly the selected peaks are gone and the new ones are there, in position order *)
     ((forall p, In p sel -> w_removable w p = true) /\ out = Ok tt /\ Permutation m' (new ++ pre ++ post) /\ pos_sorted (w_position w) m')).
Proof.
  intros AS pre sel post new m. unfold replacepeaks.
  assert (E : slice_bounds (length m) (Some (Z.of_nat (length pre))) (Some (Z.of_nat (length pre + length sel))) = (length pre, (length pre + length sel)%nat)).
  { unfold slice_bounds, clamp, m. rewrite !app_length. destruct (Z.ltb_spec (Z.of_nat (length pre)) 0); [lia|].
    destruct (Z.ltb_spec (Z.of_nat (length pre + length sel)) 0); [lia|]. f_equal; lia. }
  rewrite E. cbn [fst snd].
  assert (SL : slice m (length pre) (length pre + length sel) = sel).
  { unfold slice, m. rewrite skipn_app, skipn_all, Nat.sub_diag. cbn [app skipn].
    rewrite firstn_app, Nat.add_sub_swap, Nat.sub_diag by lia. cbn [Nat.add]. rewrite firstn_all, Nat.sub_diag, firstn_O. apply app_nil_r. }
  rewrite SL. destruct (existsb _ sel) eqn:X.
  - left. apply existsb_exists in X. destruct X as (p & Hp & R). split; [exists p; split; [exact Hp|now destruct (w_removable w p)]|auto].
  - right. split; [|split; [reflexivity|split; [|now apply sort_sorted]]].
    + intros p Hp. destruct (w_removable w p) eqn:R; [reflexivity|]. exfalso.
      assert (existsb (fun p => negb (w_removable w p)) sel = true) by (apply existsb_exists; exists p; rewrite R; auto). congruence.
    + rewrite (sort_perm w AS). unfold assign_slice, m.
      rewrite firstn_app, Nat.sub_diag, firstn_all, firstn_O, app_nil_r.
      assert (SK : skipn (length pre + length sel) (pre ++ sel ++ post) = post).
      { rewrite <- app_length, app_assoc, skipn_app, skipn_all, Nat.sub_diag. reflexivity. }
      rewrite SK.
      rewrite !app_assoc. apply Permutation_app_tail. apply Permutation_app_comm.
Qed.

(** Any Python slice: it selects some contiguous part, treated as above. *)
Theorem C38_replace_any_slice :
  argsort_ok (w_argsort w) ->
  forall m new start stop,
    exists pre sel post, m = pre ++ sel ++ post /\
      (forall p, replacepeaks w m new start stop = p ->
        (((exists q, In q sel /\ w_removable w q = false) /\ p = (m, Err ValueError)) \/
         ((forall q, In q sel -> w_removable w q = true) /\ snd p = Ok tt /\ Permutation (fst p) (new ++ pre ++ post) /\ pos_sorted (w_position w) (fst p)))).
Proof.
  intros AS m new start stop. pose proof (slice_bounds_le (length m) start stop) as [L1 L2].
  destruct (slice_bounds (length m) start stop) as [a b] eqn:SB. cbn [fst snd] in *.
  exists (firstn a m), (slice m a b), (skipn b m). split; [now apply slice_split|]. intros p <-.
  unfold replacepeaks. rewrite SB. destruct (existsb _ _) eqn:X.
  - left. apply existsb_exists in X. destruct X as (q & Hp & R). split; [exists q; split; [exact Hp|now destruct (w_removable w q)]|auto].
  - right. split; [|split; [reflexivity|split; [|now apply sort_sorted]]].
    + intros q Hq. destruct (w_removable w q) eqn:R; [reflexivity|]. exfalso.
      assert (existsb (fun p => negb (w_removable w p)) (slice m a b) = true) by (apply existsb_exists; exists q; rewrite R; auto). congruence.
    + cbn [fst]. rewrite (sort_perm w AS). unfold assign_slice. rewrite !app_assoc. apply Permutation_app_tail, Permutation_app_comm.
Qed.

(** deletepeak: indices 0..n-1 and -n..-2 delete exactly the peak Python indexing
    would select (if removable) ... *)
Theorem C38_deletepeak :
  argsort_ok (w_argsort w) ->
  forall pre p post idx, w_removable w p = true ->
    idx = Z.of_nat (length pre) \/ (idx = Z.of_nat (length pre) - Z.of_nat (length (pre ++ p :: post)) /\ post <> []) ->
    let '(m', out) := deletepeak w (pre ++ p :: post) idx in
    out = Ok tt /\ Permutation m' (pre ++ post) /\ pos_sorted (w_position w) m'.
Proof.
  intros AS pre p post idx R H. unfold deletepeak, replacepeaks.
  assert (E : slice_bounds (length (pre ++ p :: post)) (Some idx) (Some (idx + 1)) = (length pre, S (length pre))).
  { unfold slice_bounds, clamp. rewrite app_length in *. cbn [length] in *.
    destruct H as [->|[-> Hpost]].
    - destruct (Z.ltb_spec (Z.of_nat (length pre)) 0); [lia|]. destruct (Z.ltb_spec (Z.of_nat (length pre) + 1) 0); [lia|]. f_equal; lia.
    - assert (0 < length post)%nat by (destruct post; [contradiction|cbn; lia]).
      destruct (Z.ltb_spec (Z.of_nat (length pre) - Z.of_nat (length pre + S (length post))) 0); [|lia].
      destruct (Z.ltb_spec (Z.of_nat (length pre) - Z.of_nat (length pre + S (length post)) + 1) 0); [|lia]. f_equal; lia. }
  rewrite E.
  assert (SL : slice (pre ++ p :: post) (length pre) (S (length pre)) = [p]).
  { unfold slice. rewrite skipn_app, skipn_all, Nat.sub_diag. cbn [app skipn]. replace (S (length pre) - length pre)%nat with 1%nat by lia. reflexivity. }
  rewrite SL. cbn [existsb]. rewrite R. cbn [negb orb]. split; [reflexivity|]. split; [|now apply sort_sorted].
  rewrite (sort_perm w AS). unfold assign_slice. rewrite firstn_app, Nat.sub_diag, firstn_all, firstn_O, app_nil_r. cbn [app].
  rewrite skipn_app, skipn_all2 by lia. replace (S (length pre) - length pre)%nat with 1%nat by lia. reflexivity.
Qed.

(** ... but -1, the last peak, and every index past the end delete nothing, without
    any error. *)
Theorem C84_deletepeak_last_refuted :
  argsort_ok (w_argsort w) ->
  forall m idx, idx = -1 \/ Z.of_nat (length m) <= idx ->
    let '(m', out) := deletepeak w m idx in out = Ok tt /\ Permutation m' m.
Proof.
  intros AS m idx H. unfold deletepeak, replacepeaks.
  assert (E : exists a, slice_bounds (length m) (Some idx) (Some (idx + 1)) = (a, a)).
  { unfold slice_bounds, clamp. destruct H as [->|H].
    - cbn [Z.ltb Z.compare]. destruct (Z.ltb_spec (-1 + 1) 0); [lia|]. exists (Z.to_nat (Z.max (-1 + Z.of_nat (length m)) 0)). f_equal. lia.
    - destruct (Z.ltb_spec idx 0); [lia|]. destruct (Z.ltb_spec (idx + 1) 0); [lia|]. exists (length m). f_equal; lia. }
  destruct E as [a ->]. unfold slice. rewrite Nat.sub_diag. cbn [firstn existsb]. split; [reflexivity|].
  rewrite (sort_perm w AS). unfold assign_slice. cbn [app]. now rewrite firstn_skipn.
Qed.

(** ** C40 *)
(** A peak is dropped by cleanfit when one of its parameters is NaN or when it is
    removable, located before the first or not before the last point of the cluster,
    and smaller than the uncertainty at every point of the cluster. *)
Definition dropped (rc ec : list Z) (p : P) : Prop :=
  w_has_nan w p = true \/
  (w_removable w p = true /\
   match w_position w p with Some x => x < hd 0 rc \/ last rc 0 <= x | None => True end /\
   forall i v e, nth_error (w_pvalue w p rc) i = Some v -> nth_error ec i = Some e -> v < e).

Lemma last_default (l : list Z) a b : l <> [] -> last l a = last l b.
Proof. induction l as [|x l IH]; [contradiction|]. intros _. destruct l; [reflexivity|]. cbn in *. apply IH. discriminate. Qed.
Lemma vsub_neg l1 l2 m : (forall x, w_rnd w x < 0 <-> x < 0) -> pymax (vsub w l1 l2) = Ok m ->
  (m <? 0) = true <-> (forall i v e, nth_error l1 i = Some v -> nth_error l2 i = Some e -> v < e).
Proof.
  intros RO E. rewrite (pymax_neg _ _ E). unfold vsub. split.
  - intros H i v e Hv He. assert (In (w_rnd w (v - e)) (map (fun p => w_rnd w (fst p - snd p)) (combine l1 l2))).
    { apply in_map_iff. exists (v, e). split; [reflexivity|]. clear E H. revert i l2 Hv He. induction l1 as [|a l1 IH]; intros [|i] [|b l2] Hv He; try discriminate.
      - left. cbn in *. congruence.
      - right. apply (IH i); assumption. }
    apply H in H0. apply (proj1 (RO _)) in H0. lia.
  - intros H x Hx. apply in_map_iff in Hx. destruct Hx as ((v, e) & <- & Hin). cbn [fst snd]. apply RO.
    apply In_nth_error in Hin. destruct Hin as [i Hi].
    assert (nth_error l1 i = Some v /\ nth_error l2 i = Some e).
    { clear E H. revert l1 l2 Hi. induction i as [|i IH]; intros [|a l1] [|b l2] Hi; try discriminate; cbn in *.
      - split; congruence.
      - apply IH. exact Hi. }
    destruct H0 as [Hv He]. specialize (H i v e Hv He). lia.
Qed.

Theorem C40_cleanfit_exact :
  (forall x, w_rnd w x < 0 <-> x < 0) ->
  forall m rc ec, pos_sorted (w_position w) m -> rc <> [] -> length ec = length rc ->
    (forall p, length (w_pvalue w p rc) = length rc) ->
    exists keep, (forall p, keep p = false <-> dropped rc ec p) /\
      cleanfit w m rc ec = Ok (filter keep m, (length m - length (filter keep m))%nat).
Proof.
  intros RO m rc ec S Hrc Hec Hv.
  destruct rc as [|r0 rc']; [contradiction|]. set (rc := r0 :: rc') in *.
  assert (PM : forall p, exists v, pymax (vsub w (w_pvalue w p rc) ec) = Ok v).
  { intros p. apply pymax_ok. unfold vsub. intros E. apply map_eq_nil in E. pose proof (combine_length (w_pvalue w p rc) ec) as L.
    rewrite E, Hv, Hec in L. cbn in L. lia. }
  set (out p := match w_position w p with Some x => (x <? r0) || (last rc r0 <=? x) | None => true end).
  set (sil p := match pymax (vsub w (w_pvalue w p rc) ec) with Ok v => v <? 0 | Err _ => false end).
  exists (fun p => negb ((out p && (w_removable w p && sil p)) || w_has_nan w p)). split.
  - intros p. rewrite negb_false_iff. unfold dropped. rewrite orb_true_iff, !andb_true_iff.
    assert (O : out p = true <-> match w_position w p with Some x => x < hd 0 rc \/ last rc 0 <= x | None => True end).
    { unfold out. rewrite (last_default rc 0 r0) by discriminate. destruct (w_position w p) as [x|]; [|tauto].
      rewrite orb_true_iff, Z.ltb_lt, Z.leb_le. reflexivity. }
    assert (Si : sil p = true <-> forall i v e, nth_error (w_pvalue w p rc) i = Some v -> nth_error ec i = Some e -> v < e).
    { unfold sil. destruct (PM p) as [v E]. rewrite E. now apply vsub_neg. }
    rewrite O, Si. tauto.
  - unfold cleanfit, removed_indices. fold rc. change (rc) with (r0 :: rc') at 1. cbn [bind].
    set (pos := map (w_position w) m).
    set (li := searchsorted_pos pos r0). set (ri := searchsorted_pos pos (last rc r0)).
    match goal with |- context [filter ?b (seq 0 (length m))] => set (bad := b) end.
    assert (SP : StronglySorted (fun a b => pos_le a b = true) pos).
    { unfold pos. clear - S. induction S as [|a l S IH F]; [constructor|]. cbn. constructor; [exact IH|]. rewrite Forall_forall in *.
      intros x Hx. apply in_map_iff in Hx. destruct Hx as (q & <- & Hq). now apply F. }
    assert (BAD : forall i p, nth_error m i = Some p -> bad (0 + i)%nat = negb (negb ((out p && (w_removable w p && sil p)) || w_has_nan w p))).
    { intros i p Hi. cbn [Nat.add]. rewrite negb_involutive. unfold bad. rewrite Hi. f_equal. f_equal.
      assert (Hpos : nth_error pos i = Some (w_position w p)) by (unfold pos; rewrite nth_error_map, Hi; reflexivity).
      pose proof (searchsorted_spec pos r0 SP i _ Hpos) as H1. pose proof (searchsorted_spec pos (last rc r0) SP i _ Hpos) as H2.
      fold li in H1. fold ri in H2. assert (i < length m)%nat by (apply nth_error_Some; congruence).
      apply eq_true_iff_eq. rewrite existsb_exists. unfold out.
      split.
      - intros (j & Hj & Ej). apply Nat.eqb_eq in Ej. subst j. rewrite in_app_iff, !in_seq in Hj.
        destruct (w_position w p) as [x|]; [|reflexivity]. rewrite orb_true_iff, Z.ltb_lt, Z.leb_le. destruct Hj as [Hj|Hj].
        + left. apply H1. lia.
        + right. destruct (Z.lt_ge_cases x (last rc r0)) as [L|L]; [|exact L]. apply H2 in L. lia.
      - intros Ho. exists i. split; [|apply Nat.eqb_refl]. rewrite in_app_iff, !in_seq. destruct (w_position w p) as [x|].
        + rewrite orb_true_iff, Z.ltb_lt, Z.leb_le in Ho. destruct Ho as [Ho|Ho].
          * left. apply H1 in Ho. lia.
          * right. assert (~ (i < ri)%nat) by (rewrite H2; lia). lia.
        + right. assert (~ (i < ri)%nat) by (rewrite H2; tauto). lia. }
    f_equal. f_equal.
    + etransitivity; [exact (delete_many bad m [] 0 eq_refl)|]. cbn [app]. apply keep_idx_filter. exact BAD.
    + rewrite (filter_idx_length bad _ m 0 BAD).
      assert (G : forall (f : P -> bool) l, length (filter (fun a => negb (f a)) l) = (length l - length (filter f l))%nat).
      { intros f l. enough (length (filter f l) + length (filter (fun a => negb (f a)) l) = length l)%nat by lia.
        induction l as [|a l IH]; [reflexivity|]. cbn. destruct (f a); cbn; lia. }
      apply G.
Qed.

(** On an empty cluster it raises. *)
Theorem C40_empty_cluster : forall m ec, cleanfit w m [] ec = Err IndexError.
Proof. reflexivity. Qed.

(** ** C39 *)
(** Data point i of a cluster's data rises to or above its uncertainty. *)
Definition loud (c : cluster) (i : nat) : Prop :=
  exists y b e, nth_error (adat (c_y c)) i = Some y /\ nth_error (valuebl w (c_base c) (adat (c_r c))) i = Some b /\
    nth_error (adat (c_e c)) i = Some e /\ e <= w_rnd w (y - b).
(** Successive change_slice calls. *)
Fixpoint run_slices (c : cluster) (l : list (nat * nat)) : cluster * result unit :=
  match l with
  | [] => (c, Ok tt)
  | (a, b) :: r => match change_slice w c a b with (c', Ok _) => run_slices c' r | (c', Err e) => (c', Err e) end
  end.
Definition valid_slice (n : nat) (s : nat * nat) : Prop := (fst s < snd s <= n)%nat.
Fixpoint growing (s : nat * nat) (l : list (nat * nat)) : Prop :=
  match l with [] => True | t :: r => (fst t <= fst s /\ snd s <= snd t)%nat /\ growing t r end.
Definition same_data (c c' : cluster) : Prop :=
  c_model c' = c_model c /\ c_base c' = c_base c /\ c_r c' = c_r c /\ c_y c' = c_y c /\ c_e c' = c_e c /\
  c_last c' = c_last c /\ c_em c' = c_em c /\ c_pf c' = c_pf c.
Definition data_ok (c : cluster) : Prop :=
  length (adat (c_y c)) = length (adat (c_r c)) /\ length (adat (c_e c)) = length (adat (c_r c)) /\
  length (valuebl w (c_base c) (adat (c_r c))) = length (adat (c_r c)).

Lemma same_data_loud c c' i : same_data c c' -> loud c' i <-> loud c i.
Proof. intros (_ & H2 & H3 & H4 & H5 & _). unfold loud. now rewrite H2, H3, H4, H5. Qed.

Lemma nth_error_combine {A C} (l1 : list A) (l2 : list C) i x y :
  nth_error (combine l1 l2) i = Some (x, y) <-> nth_error l1 i = Some x /\ nth_error l2 i = Some y.
Proof.
  revert l1 l2. induction i as [|i IH]; intros [|a l1] [|b l2]; cbn; try (split; [discriminate|intros [? ?]; discriminate]).
  - split; [intros H; split; congruence|intros [H1 H2]; congruence].
  - apply IH.
Qed.

Lemma all_below_spec (c : cluster) a b : (forall x, w_rnd w x < 0 <-> x < 0) -> data_ok c -> (a < b <= length (adat (c_r c)))%nat ->
  exists v, all_below w (y_nobl w (c_base c) (adat (c_r c)) (adat (c_y c))) (adat (c_e c)) a b = Ok v /\
    (v = true <-> forall i, (a <= i < b)%nat -> ~ loud c i).
Proof.
  intros RO (L1 & L2 & L3) H. unfold all_below.
  set (nobl := y_nobl _ _ _ _). assert (LN : length nobl = length (adat (c_r c))).
  { unfold nobl, y_nobl, vsub. rewrite map_length, combine_length. lia. }
  assert (NE : vsub w (slice nobl a b) (slice (adat (c_e c)) a b) <> []).
  { unfold vsub. intros E. apply map_eq_nil in E. pose proof (combine_length (slice nobl a b) (slice (adat (c_e c)) a b)) as L.
    rewrite E, !slice_length in L. cbn in L. lia. }
  destruct (pymax_ok _ NE) as [m E]. rewrite E. cbn [bind]. exists (m <? 0). split; [reflexivity|].
  rewrite (vsub_neg _ _ _ RO E).
  assert (NB : forall i d, nth_error nobl i = Some d <-> exists y bl, nth_error (adat (c_y c)) i = Some y /\ nth_error (valuebl w (c_base c) (adat (c_r c))) i = Some bl /\ d = w_rnd w (y - bl)).
  { intros i d. unfold nobl, y_nobl, vsub. rewrite nth_error_map. split.
    - destruct (nth_error (combine _ _) i) as [[y bl]|] eqn:EC; [|discriminate]. cbn. intros X. apply nth_error_combine in EC. exists y, bl. intuition congruence.
    - intros (y & bl & Hy & Hb & ->). rewrite (proj2 (nth_error_combine _ _ i y bl) (conj Hy Hb)). reflexivity. }
  split.
  - intros G i Hi (y & bl & e & Hy & Hb & He & Hle).
    specialize (G (i - a)%nat (w_rnd w (y - bl)) e). rewrite !nth_error_slice in G.
    replace (a + (i - a))%nat with i in G by lia. destruct (Nat.ltb_spec (i - a) (b - a)); [|lia].
    assert (w_rnd w (y - bl) < e) by (apply G; [apply NB; exists y, bl; auto|exact He]). lia.
  - intros G i v e Hv He. rewrite nth_error_slice in Hv, He. destruct (Nat.ltb_spec i (b - a)); [|discriminate].
    apply NB in Hv. destruct Hv as (y & bl & Hy & Hb & ->).
    destruct (Z.lt_ge_cases (w_rnd w (y - bl)) e) as [L|L]; [exact L|]. exfalso.
    apply (G (a + i)%nat); [lia|]. exists y, bl, e. repeat split; assumption.
Qed.

Lemma change_slice_step (c : cluster) a b :
  (forall x, w_rnd w x < 0 <-> x < 0) -> data_ok c -> valid_slice (length (adat (c_r c))) (c_start c, c_stop c) ->
  valid_slice (length (adat (c_r c))) (a, b) ->
  exists c', change_slice w c a b = (c', Ok tt) /\ same_data c c' /\ c_start c' = a /\ c_stop c' = b /\
    (c_never c' = true <-> c_never c = true /\
       (forall i, (a <= i < c_start c)%nat -> ~ loud c i) /\ (forall i, (c_stop c <= i < b)%nat -> ~ loud c i)).
Proof.
  intros RO D V1 V2. unfold valid_slice in *; cbn [fst snd] in *. unfold change_slice, change_slice_from.
  cbn [c_model c_base c_r c_y c_e c_last c_em c_pf].
  set (nobl := y_nobl _ _ _ _).
  assert (X : exists v1, (if c_never c && (a <? c_start c)%nat then all_below w nobl (adat (c_e c)) a (c_start c) else Ok (c_never c)) = Ok v1 /\
     (v1 = true <-> c_never c = true /\ (forall i, (a <= i < c_start c)%nat -> ~ loud c i))).
  { destruct (c_never c) eqn:NV; cbn [andb].
    - destruct (Nat.ltb_spec a (c_start c)).
      + destruct (all_below_spec c a (c_start c) RO D ltac:(lia)) as (v & E & I). exists v. split; [exact E|]. rewrite I. tauto.
      + exists true. split; [reflexivity|]. split; [|auto]. intros _. split; [reflexivity|]. intros i Hi. lia.
    - exists false. split; [reflexivity|]. split; [discriminate|]. intros [? _]. discriminate. }
  destruct X as (v1 & -> & I1).
  assert (Y : exists v2, (if v1 && (c_stop c <? b)%nat then all_below w nobl (adat (c_e c)) (c_stop c) b else Ok v1) = Ok v2 /\
     (v2 = true <-> v1 = true /\ (forall i, (c_stop c <= i < b)%nat -> ~ loud c i))).
  { destruct v1; cbn [andb].
    - destruct (Nat.ltb_spec (c_stop c) b).
      + destruct (all_below_spec c (c_stop c) b RO D ltac:(lia)) as (v & E & I). exists v. split; [exact E|]. rewrite I. tauto.
      + exists true. split; [reflexivity|]. split; [|auto]. intros _. split; [reflexivity|]. intros i Hi. lia.
    - exists false. split; [reflexivity|]. split; [discriminate|]. intros [? _]. discriminate. }
  destruct Y as (v2 & -> & I2).
  eexists. split; [reflexivity|]. split; [repeat split|]. cbn [c_start c_stop c_never]. split; [reflexivity|]. split; [reflexivity|].
  rewrite I2, I1. tauto.
Qed.

(** Whatever slices a cluster is given in its life, they are taken over as they are,
    nothing else changes, and a cluster marked as "never fit" contains no point that
    rises to its uncertainty: no cluster is wrongly skipped.  If each slice contains
    the previous one (the case in peak extraction) the mark is exact. *)
Theorem C39_never_fit :
  (forall x, w_rnd w x < 0 <-> x < 0) ->
  forall m bl r y e s0 em pf c0 hist,
    make_cluster w m bl r y e (Some s0) em pf = Ok c0 -> data_ok c0 ->
    valid_slice (length (adat r)) s0 -> Forall (valid_slice (length (adat r))) hist ->
    exists c, run_slices c0 hist = (c, Ok tt) /\ same_data c0 c /\ (c_start c, c_stop c) = last hist s0 /\
      (c_never c = true -> forall i, (c_start c <= i < c_stop c)%nat -> ~ loud c i) /\
      (growing s0 hist -> (forall i, (c_start c <= i < c_stop c)%nat -> ~ loud c i) -> c_never c = true).
Proof.
  intros RO m bl r y e [a0 b0] em pf c0 hist MK D V0 VH.
  assert (C0 : c_r c0 = r /\ c_start c0 = a0 /\ c_stop c0 = b0 /\ c_never c0 = true <->
     c_r c0 = r /\ c_start c0 = a0 /\ c_stop c0 = b0 /\ forall i, (a0 <= i < b0)%nat -> ~ loud c0 i).
  { unfold make_cluster, change_slice_from in MK. cbn [c_base c_r c_y c_e] in MK.
    destruct (all_below w _ _ a0 b0) as [v|] eqn:E; [|discriminate]. injection MK as <-.
    destruct (all_below_spec _ a0 b0 RO D V0) as (v' & E' & I). cbn [c_base c_r c_y c_e c_never c_start c_stop] in *.
    assert (v' = v) by congruence. subst v'. tauto. }
  assert (F0 : c_r c0 = r /\ c_start c0 = a0 /\ c_stop c0 = b0).
  { unfold make_cluster, change_slice_from in MK. cbn [c_base c_r c_y c_e] in MK.
    destruct (all_below w _ _ a0 b0) as [v|] eqn:E; [|discriminate]. injection MK as <-. auto. }
  destruct F0 as (Fr & Fa & Fb). assert (N0 : c_never c0 = true <-> forall i, (a0 <= i < b0)%nat -> ~ loud c0 i) by tauto. clear C0 MK.
  assert (G : forall hist c s, same_data c0 c -> (c_start c, c_stop c) = s -> valid_slice (length (adat r)) s -> Forall (valid_slice (length (adat r))) hist ->
     (c_never c = true -> forall i, (fst s <= i < snd s)%nat -> ~ loud c0 i) ->
     exists c', run_slices c hist = (c', Ok tt) /\ same_data c0 c' /\ (c_start c', c_stop c') = last hist s /\
       (c_never c' = true -> forall i, (c_start c' <= i < c_stop c')%nat -> ~ loud c0 i) /\
       (growing s hist -> ((forall i, (fst s <= i < snd s)%nat -> ~ loud c0 i) -> c_never c = true) ->
         (forall i, (c_start c' <= i < c_stop c')%nat -> ~ loud c0 i) -> c_never c' = true)).
  { clear hist VH. induction hist as [|[a b] hist IH]; intros c s SD Es Vs VH Hn.
    - exists c. split; [reflexivity|]. split; [exact SD|]. split; [exact Es|]. subst s. cbn [fst snd] in *. split; [exact Hn|]. tauto.
    - inversion VH as [|? ? V1 V2]; subst. cbn [fst snd] in *.
      assert (Dc : data_ok c). { destruct SD as (_ & S2 & S3 & S4 & S5 & _). unfold data_ok in *. now rewrite S2, S3, S4, S5. }
      assert (Er : c_r c = c_r c0) by apply SD.
      assert (Vs' : valid_slice (length (adat (c_r c))) (c_start c, c_stop c)) by (rewrite Er; exact Vs).
      assert (V1' : valid_slice (length (adat (c_r c))) (a, b)) by (rewrite Er; exact V1).
      destruct (change_slice_step c a b RO Dc Vs' V1') as (c1 & E1 & SD1 & Ea & Eb & I1).
      assert (SD' : same_data c0 c1) by (unfold same_data in *; intuition congruence).
      assert (LC : forall i, loud c i <-> loud c0 i) by (intros i; now apply same_data_loud).
      destruct (IH c1 (a, b)) as (c' & Ec' & SDc' & El & Hs & Hg); [exact SD'|now rewrite Ea, Eb|exact V1|exact V2| |].
      { intros Hc i Hi. cbn [fst snd] in Hi. apply I1 in Hc. destruct Hc as (Hc & Hl & Hr). rewrite <- LC.
        destruct (Nat.lt_ge_cases i (c_start c)) as [L|L]; [apply Hl; lia|].
        destruct (Nat.lt_ge_cases i (c_stop c)) as [L2|L2]; [rewrite LC; apply Hn; [exact Hc|lia]|apply Hr; lia]. }
      exists c'. split; [cbn [run_slices]; rewrite E1; exact Ec'|]. split; [exact SDc'|]. split; [|split; [exact Hs|]].
      + rewrite El. destruct hist as [|h hist]; [reflexivity|]. clear. revert h. induction hist as [|g l IH]; intros h; [reflexivity|]. cbn in *. apply IH.
      + cbn [growing fst snd]. intros [[Ga Gb] Gr] Hold Hq. apply Hg; [exact Gr| |exact Hq].
        cbn [fst snd]. intros Hab. apply I1. split; [|split].
        * apply Hold. intros i Hi. apply Hab. lia.
        * intros i Hi. rewrite LC. apply Hab. unfold valid_slice in *. cbn [fst snd] in *. lia.
        * intros i Hi. rewrite LC. apply Hab. unfold valid_slice in *. cbn [fst snd] in *. lia. }
  subst r. destruct (G hist c0 (a0, b0)) as (c & Ec & SD & El & Hs & Hg);
    [repeat split|now rewrite Fa, Fb|exact V0|exact VH|intros Hn i Hi; exact (proj1 N0 Hn i Hi)|].
  exists c. split; [exact Ec|]. split; [exact SD|]. split; [exact El|].
  assert (LC : forall i, loud c i <-> loud c0 i) by (intros i; now apply same_data_loud). split.
  - intros Hn i Hi. rewrite LC. now apply Hs.
  - intros Hgr Hq. apply Hg; [exact Hgr|intros X; apply N0; exact X|]. intros i Hi. rewrite <- LC. now apply Hq.
Qed.

(** ** C37 *)
(** For every optimiser, estimator and statistic: fit changes nothing but the peaks,
    the baseline and the size of the last fit; if it returns a quality, that is the
    quality of the cluster afterwards and not worse than before; if it returns None,
    peaks and baseline are what they were before (a cluster without peaks may have
    gained the one estimated peak). *)
Definition same_frame (c c' : cluster) : Prop :=
  c_r c' = c_r c /\ c_y c' = c_y c /\ c_e c' = c_e c /\ c_start c' = c_start c /\ c_stop c' = c_stop c /\
  c_never c' = c_never c /\ c_em c' = c_em c /\ c_pf c' = c_pf c.

Lemma estimate_frame c c1 r : estimatepeak w c = (c1, r) -> c_model c = [] ->
  same_frame c c1 /\ c_base c1 = c_base c /\ c_last c1 = c_last c /\
  (c1 = c \/ (exists p, w_estimate w c = Ok (Some p) /\ c1 = set_model c (sort_peaks w [p]) /\ r = Ok true)).
Proof.
  intros E M. unfold estimatepeak in E. assert (SF : same_frame c c) by (repeat split).
  destruct (c_pf c) as [|f pf]; [injection E as <- <-; auto|].
  destruct (w_estimate w c) as [[p|]|e]; [|injection E as <- <-; auto|injection E as <- <-; auto].
  unfold replacepeaks in E. rewrite M in E. cbn in E. injection E as <- <-.
  split; [repeat split|]. split; [reflexivity|]. split; [reflexivity|]. right. exists p. auto.
Qed.

Theorem C37_fit_never_worse :
  argsort_ok (w_argsort w) ->
  forall c justify ntrials fitbaseline estimate,
    let r := fit w c justify ntrials fitbaseline estimate in
    same_frame c (fr_c r) /\
    (* the cluster the optimiser starts from: c itself, or c with one estimated peak *)
    exists c1, (c1 = c \/ (c_model c = [] /\ exists p, w_estimate w c = Ok (Some p) /\ c1 = set_model c [p])) /\
      match fr_out r with
      | Ok None => c_model (fr_c r) = c_model c1 /\ c_base (fr_c r) = c_base c1
      | Ok (Some q) => q = w_quality w (fr_c r) /\ w_qlt w q (w_quality w c1) = false /\
          (fitbaseline = false -> c_base (fr_c r) = c_base c) /\ c_never c = false
      | Err _ => True
      end.
Proof.
  intros AS c justify ntrials fbl estimate r. subst r. unfold fit.
  assert (S1 : forall p : P, sort_peaks w [p] = [p]) by (intros p; apply Permutation_length_1_inv; symmetry; apply (sort_perm w AS)).
  assert (SF : same_frame c c) by (repeat split).
  destruct (c_never c) eqn:NV; [cbn [fr_c fr_out]; split; [exact SF|]; exists c; auto|].
  assert (PRE : forall pre c1 o,
     pre = (c1, o) ->
     pre = (match c_model c with
     | [] => if estimate then
               match estimatepeak w c with
               | (c1, Ok _) => (c1, None)
               | (c1, Err EstimationError) => (c1, Some (Ok (@None Q)))
               | (c1, Err e) => (c1, Some (Err e))
               end
             else (c, Some (Ok None))
     | _ => (c, None)
     end) ->
     same_frame c c1 /\ c_base c1 = c_base c /\ (c1 = c \/ (c_model c = [] /\ exists p, w_estimate w c = Ok (Some p) /\ c1 = set_model c [p])) /\
     (forall q, o <> Some (Ok (Some q)))).
  { intros pre c1 o -> E. destruct (c_model c) as [|q l] eqn:M.
    - destruct estimate; [|injection E as -> ->; repeat split; auto; discriminate].
      destruct (estimatepeak w c) as [c2 r2] eqn:EP. destruct (estimate_frame c c2 r2 EP M) as (F1 & F2 & F3 & F4).
      assert (c1 = c2 /\ forall q, o <> Some (Ok (Some q))) as [-> Ho].
      { destruct r2 as [|[]]; injection E as -> ->; split; auto; intros; discriminate. }
      split; [exact F1|]. split; [exact F2|]. split; [|exact Ho]. destruct F4 as [->|(p & Hp & -> & _)]; [left; reflexivity|right].
      split; [reflexivity|]. exists p. now rewrite S1.
    - injection E as -> ->. repeat split; auto; discriminate. }
  destruct (match c_model c with [] => _ | _ => _ end) as [c1 o] eqn:E.
  destruct (PRE _ _ _ eq_refl eq_refl) as (F1 & F2 & F3 & F4).
  assert (SL : forall x, same_frame c (set_last c1 x)) by (intros; exact F1).
  assert (SM : forall x m b, same_frame c (set_base (set_model (set_last c1 x) m) b)) by (intros; exact F1).
  destruct o as [o|]; cbn [fr_c fr_out].
  - split; [exact F1|]. exists c1. split; [exact F3|]. destruct o as [[q|]|]; [exfalso; eapply F4; reflexivity|auto|exact I].
  - set (fb := fbl && _).
    assert (FB : fbl = false -> fb = false) by (intros ->; reflexivity).
    destruct (w_engine w _ _ _ _) as [[ps ob] out].
    destruct out as [[]|x].
    + destruct (cleanfit w _ _ _) as [[ps2 n]|x].
      * destruct (w_qlt w _ _) eqn:QL; [cbn [fr_c fr_out]; split; [apply SL|]; exists c1; auto|].
        assert (KEEP : same_frame c (set_base (set_model (set_last c1 (c_size c1)) ps2) (if fb then ob else c_base (set_last c1 (c_size c1)))) /\
          exists c1', (c1' = c \/ (c_model c = [] /\ exists p, w_estimate w c = Ok (Some p) /\ c1' = set_model c [p])) /\
          w_quality w (set_base (set_model (set_last c1 (c_size c1)) ps2) (if fb then ob else c_base (set_last c1 (c_size c1)))) =
          w_quality w (set_base (set_model (set_last c1 (c_size c1)) ps2) (if fb then ob else c_base (set_last c1 (c_size c1)))) /\
          w_qlt w (w_quality w (set_base (set_model (set_last c1 (c_size c1)) ps2) (if fb then ob else c_base (set_last c1 (c_size c1))))) (w_quality w c1') = false /\
          (fbl = false -> c_base (set_base (set_model (set_last c1 (c_size c1)) ps2) (if fb then ob else c_base (set_last c1 (c_size c1)))) = c_base c) /\ false = false).
        { split; [apply SM|]. exists c1. split; [exact F3|]. split; [reflexivity|]. split; [exact QL|]. split; [|reflexivity].
          intros X. rewrite (FB X). exact F2. }
        destruct (justify && _ && _); [|cbn [fr_c fr_out]; exact KEEP].
        destruct (min_npars w (c_pf c)) as [k|x].
        -- destruct (w_growth w _ _ k); cbn [fr_c fr_out]; [split; [apply SL|]; exists c1; auto|exact KEEP].
        -- cbn [fr_c fr_out]. split; [apply SM|]. exists c1. auto.
      * cbn [fr_c fr_out]. split; [apply SM|]. exists c1. auto.
    + destruct x; cbn [fr_c fr_out]; (split; [first [apply SM|apply SL]|]; exists c1; auto).
Qed.

(** A kept fit: the optimiser's peaks in position order, cleaned as in C40. *)
Theorem C37_kept_model :
  argsort_ok (w_argsort w) ->
  forall c justify ntrials fitbaseline estimate q,
    let r := fit w c justify ntrials fitbaseline estimate in
    fr_out r = Ok (Some q) ->
    exists sorted n, Permutation sorted (fr_raw r) /\ pos_sorted (w_position w) sorted /\
      cleanfit w sorted (r_cluster c) (e_cluster c) = Ok (c_model (fr_c r), n).
Proof.
  intros AS c justify ntrials fbl estimate q r. subst r. unfold fit.
  destruct (c_never c); [discriminate|].
  destruct (match c_model c with [] => _ | _ => _ end) as [c1 o] eqn:E.
  assert (F : same_frame c c1 /\ (forall q, o <> Some (Ok (Some q)))).
  { assert (same_frame c c) by (repeat split). destruct (c_model c) eqn:M; [|injection E as <- <-; split; [assumption|discriminate]].
    destruct estimate; [|injection E as <- <-; split; [assumption|discriminate]].
    destruct (estimatepeak w c) as [c2 r2] eqn:EP. destruct (estimate_frame c c2 r2 EP M) as (F1 & _).
    destruct r2 as [|[]]; injection E as <- <-; (split; [exact F1|intros; discriminate]). }
  destruct F as [F1 F4].
  destruct o as [o|]; cbn [fr_c fr_out fr_raw]; [intros ->; exfalso; eapply F4; reflexivity|].
  set (fb := fbl && _). destruct (w_engine w _ _ _ _) as [[ps ob] out]. destruct out as [[]|x]; [|destruct x; discriminate].
  assert (R : r_cluster (set_last c1 (c_size c1)) = r_cluster c /\ e_cluster (set_last c1 (c_size c1)) = e_cluster c).
  { destruct F1 as (A1 & A2 & A3 & A4 & A5 & _). unfold r_cluster, e_cluster. cbn [set_last c_r c_e c_start c_stop]. now rewrite A1, A3, A4, A5. }
  destruct R as [-> ->].
  destruct (cleanfit w (sort_peaks w ps) (r_cluster c) (e_cluster c)) as [[ps2 n]|x] eqn:C; [|discriminate].
  assert (K : exists sorted n, Permutation sorted ps /\ pos_sorted (w_position w) sorted /\ cleanfit w sorted (r_cluster c) (e_cluster c) = Ok (ps2, n)).
  { exists (sort_peaks w ps), n. split; [now apply sort_perm|]. split; [now apply sort_sorted|exact C]. }
  destruct (w_qlt w _ _); [discriminate|].
  destruct (justify && _ && _); [|intros _; exact K].
  destruct (min_npars w (c_pf c)); [|discriminate]. destruct (w_growth w _ _ _); [discriminate|]. intros _; exact K.
Qed.

(** The objects themselves: after a failed fit the cluster holds the old values again,
    but the baseline and peak objects it held on entry keep whatever the optimiser
    left in them.  Another cluster sharing the baseline object (join_adjacent hands
    the first cluster's baseline on without copying it) is changed by the failed fit. *)
Theorem C83_shared_objects_refuted :
  forall c justify ntrials b ps ob,
    c_never c = false -> c_model c <> [] -> c_base c = Some b -> (0 < w_b_npars w false b)%nat ->
    w_engine w (c_model c) (Some b) (set_last c (c_size c)) ntrials = ((ps, ob), Err FitError) ->
    let r := fit w c justify ntrials true true in
    fr_out r = Ok None /\ c_base (fr_c r) = Some b /\ c_model (fr_c r) = c_model c /\ fr_base r = ob /\ fr_list r = ps.
Proof.
  intros c justify ntrials b ps ob NV M Bs NP En r. subst r. unfold fit. rewrite NV.
  destruct (c_model c) as [|p l] eqn:Ml; [contradiction|].
  change (c_base (set_last c (c_size c))) with (c_base c). change (c_model (set_last c (c_size c))) with (c_model c).
  rewrite Bs, Ml. apply Nat.ltb_lt in NP. rewrite NP. cbn [andb]. rewrite En. cbn. auto.
Qed.

(** ** C45 *)
(** A contingent fit is a fit(justify=True) exactly when the cluster may be fit and
    either it was fit before at size s and size/s >= num/den, or it was never fit and
    has at least minpoints points; otherwise nothing happens at all. *)
Theorem C45_contingent :
  forall c minpoints num den, 0 < den ->
    let due := c_never c = false /\
      ((c_last c <> 0%nat /\ num * Z.of_nat (c_last c) <= Z.of_nat (c_size c) * den) \/
       (c_last c = 0%nat /\ minpoints <= Z.of_nat (c_size c))) in
    (due -> contingent_fit w c minpoints num den = fit w c true 0 false true) /\
    (~ due -> fr_c (contingent_fit w c minpoints num den) = c /\ fr_out (contingent_fit w c minpoints num den) = Ok None /\
              fr_list (contingent_fit w c minpoints num den) = c_model c).
Proof.
  intros c mp num den Hd due. unfold contingent_fit.
  assert (D : due <-> fit_due c mp num den = true).
  { unfold due, fit_due. rewrite andb_true_iff, negb_true_iff, orb_true_iff, !andb_true_iff, Nat.ltb_lt, Nat.eqb_eq, !Z.leb_le. intuition lia. }
  rewrite D. clear D due. destruct (fit_due c mp num den); split; auto; intros H; [contradiction H; reflexivity|discriminate].
Qed.

(** After a fit attempt on a fittable cluster the recorded size is the current size, so
    (threshold above 1) no further contingent fit happens until the cluster grows. *)
Theorem C45_no_refit_without_growth :
  forall c justify ntrials fb est minpoints num den, 0 < den < num -> c_never c = false -> (0 < c_size c)%nat ->
    let r := fit w c justify ntrials fb est in
    c_last (fr_c r) = c_size c -> c_model c <> [] ->
    fr_out (contingent_fit w (fr_c r) minpoints num den) = Ok None /\ fr_c (contingent_fit w (fr_c r) minpoints num den) = fr_c r.
Proof.
  intros c justify ntrials fb est mp num den Hd NV Hs r HL HM. 
  assert (SZ : c_size (fr_c r) = c_size c).
  { subst r. unfold fit. rewrite NV. destruct (c_model c) eqn:M; [contradiction|].
    set (f := fb && _). destruct (w_engine w _ _ _ _) as [[ps ob] out].
    destruct out as [[]|x]; [|destruct x; reflexivity].
    destruct (cleanfit w _ _ _) as [[ps2 n]|x]; [|reflexivity]. destruct (w_qlt w _ _); [reflexivity|].
    destruct (justify && _ && _); [|reflexivity]. destruct (min_npars w _); [|reflexivity]. destruct (w_growth w _ _ _); reflexivity. }
  destruct (C45_contingent (fr_c r) mp num den ltac:(lia)) as [_ H]. split; apply H; rewrite HL, SZ; intros (_ & [(A & B1)|(A & _)]); nia || lia.
Qed.
Theorem C45_last_fit_size :
  forall c justify ntrials fb est, c_never c = false -> c_model c <> [] ->
    c_last (fr_c (fit w c justify ntrials fb est)) = c_size c.
Proof.
  intros c justify ntrials fb est NV HM. unfold fit. rewrite NV. destruct (c_model c) eqn:M; [contradiction|].
  set (f := fb && _). destruct (w_engine w _ _ _ _) as [[ps ob] out].
  destruct out as [[]|x]; [|destruct x; reflexivity].
  destruct (cleanfit w _ _ _) as [[ps2 n]|x]; [|reflexivity]. destruct (w_qlt w _ _); [reflexivity|].
  destruct (justify && _ && _); [|reflexivity]. destruct (min_npars w _); [|reflexivity]. destruct (w_growth w _ _ _); reflexivity.
Qed.

(** ** C41 *)
Definition at_border (border : Z) (p : P) : bool := pos_eq (w_position w p) (Some border).
Fixpoint dd (border : Z) (prev : bool) (l : list P) : list P :=
  match l with
  | [] => []
  | a :: r => if at_border border a && prev then dd border (at_border border a) r else a :: dd border (at_border border a) r
  end.
Lemma join_step_spec border ids nl pre a suf :
  join_step w border ids nl (pre ++ a :: suf) (length pre) =
  if at_border border a && match rev pre with [] => false | b :: _ => at_border border b end then pre ++ suf else pre ++ a :: suf.
Proof.
  unfold join_step. rewrite nth_error_app2, Nat.sub_diag by lia. cbn [nth_error].
  assert (E : (0 <? length pre)%nat && pos_eq match nth_error (pre ++ a :: suf) (length pre - 1) with Some p => w_position w p | None => None end (Some border)
    = match rev pre with [] => false | b :: _ => at_border border b end).
  { destruct (rev pre) as [|b t] eqn:R.
    - apply (f_equal (@rev P)) in R. rewrite rev_involutive in R. subst pre. reflexivity.
    - apply (f_equal (@rev P)) in R. rewrite rev_involutive in R. cbn [rev] in R. subst pre. rewrite app_length, Nat.add_sub. cbn [length].
      rewrite <- app_assoc. rewrite nth_error_app2, Nat.sub_diag by lia. cbn [app nth_error].
      replace (0 <? length (rev t) + 1)%nat with true by (symmetry; apply Nat.ltb_lt; lia). reflexivity. }
  rewrite <- andb_assoc, E. fold (at_border border a). destruct (at_border border a && _); [now apply del_at_app|].
  destruct (negb _); [|reflexivity].
  replace (pos_gt (w_position w a) (Some border) && (nth (length pre) ids 0 <? nl)%nat && (pos_gt (Some border) (w_position w a) && (nl <=? nth (length pre) ids 0)%nat)) with false; [reflexivity|].
  destruct (w_position w a) as [x|]; cbn; [|reflexivity]. destruct (Z.ltb_spec border x), (Z.ltb_spec x border); cbn; try reflexivity; try lia.
  all: rewrite ?andb_false_r, ?andb_true_r; try reflexivity.
Qed.
Lemma join_fold border ids nl l : forall pre,
  fold_left (join_step w border ids nl) (rev (seq (length pre) (length l))) (pre ++ l) =
  pre ++ dd border match rev pre with [] => false | b :: _ => at_border border b end l.
Proof.
  induction l as [|a l IH]; intros pre; [reflexivity|]. cbn [length seq rev]. rewrite fold_left_app. cbn [fold_left].
  specialize (IH (pre ++ [a])). rewrite app_length in IH. cbn [length] in IH. rewrite Nat.add_1_r, <- app_assoc in IH. cbn [app] in IH.
  rewrite IH. rewrite rev_app_distr. cbn [rev app]. rewrite <- app_assoc. cbn [app]. rewrite join_step_spec. cbn [dd].
  destruct (at_border border a && _); reflexivity.
Qed.
Lemma border_split border (l : list P) : pos_sorted (w_position w) l ->
  exists l1 dup l2, l = l1 ++ dup ++ l2 /\
    (forall p, In p l1 -> exists x, w_position w p = Some x /\ x < border) /\
    (forall p, In p dup -> w_position w p = Some border) /\
    (forall p, In p l2 -> match w_position w p with Some x => border < x | None => True end).
Proof.
  induction 1 as [|a l S (l1 & dup & l2 & -> & H1 & H2 & H3) F]; [exists [], [], []; repeat split; intros p []|].
  rewrite Forall_forall in F.
  destruct (w_position w a) as [x|] eqn:Pa.
  - destruct (Z.lt_trichotomy x border) as [L|[->|L]].
    + exists (a :: l1), dup, l2. split; [reflexivity|]. split; [|auto]. intros p [<-|Hp]; [exists x; auto|auto].
    + assert (l1 = []) as ->. { destruct l1 as [|p l1]; [reflexivity|]. exfalso. destruct (H1 p (or_introl eq_refl)) as (y & Ey & Ly).
        specialize (F p (or_introl eq_refl)). rewrite Ey in F. cbn in F. apply Z.leb_le in F. lia. }
      exists [], (a :: dup), l2. split; [reflexivity|]. split; [intros ? []|]. split; [|exact H3]. intros p [<-|Hp]; auto.
    + assert (l1 = [] /\ dup = []) as [-> ->].
      { split; [destruct l1 as [|p l1]; [reflexivity|]|destruct dup as [|p dup]; [reflexivity|]]; exfalso.
        - destruct (H1 p (or_introl eq_refl)) as (y & Ey & Ly). specialize (F p (or_introl eq_refl)). rewrite Ey in F. cbn in F. apply Z.leb_le in F. lia.
        - specialize (H2 p (or_introl eq_refl)). specialize (F p). rewrite H2 in F.
          assert (pos_le (Some x) (Some border) = true) by (apply F; apply in_or_app; right; left; reflexivity). cbn in H. apply Z.leb_le in H. lia. }
      exists [], [], (a :: l2). split; [reflexivity|]. split; [intros ? []|]. split; [intros ? []|]. intros p [<-|Hp]; [rewrite Pa; exact L|exact (H3 p Hp)].
  - assert (l1 = [] /\ dup = []) as [-> ->].
    { split; [destruct l1 as [|p l1]; [reflexivity|]|destruct dup as [|p dup]; [reflexivity|]]; exfalso.
      - destruct (H1 p (or_introl eq_refl)) as (y & Ey & Ly). specialize (F p (or_introl eq_refl)). rewrite Ey in F. discriminate.
      - specialize (H2 p (or_introl eq_refl)). assert (pos_le None (w_position w p) = true) by (apply F; apply in_or_app; right; left; reflexivity).
        rewrite H2 in H. discriminate. }
    exists [], [], (a :: l2). split; [reflexivity|]. split; [intros ? []|]. split; [intros ? []|]. intros p [<-|Hp]; [rewrite Pa; exact I|exact (H3 p Hp)].
Qed.
Lemma dd_none border l : forall prev, (forall p, In p l -> at_border border p = false) -> dd border prev l = l.
Proof. induction l as [|a l IH]; intros prev H; [reflexivity|]. cbn [dd]. rewrite (H a (or_introl eq_refl)). cbn [andb]. f_equal. apply IH. intros; apply H; now right. Qed.
Lemma dd_app border l1 : forall prev l, (forall p, In p l1 -> at_border border p = false) -> (l1 <> [] \/ prev = false) -> dd border prev (l1 ++ l) = l1 ++ dd border false l.
Proof.
  induction l1 as [|a l1 IH]; intros prev l H Hp; [destruct Hp as [Hp| ->]; [contradiction|reflexivity]|].
  cbn [dd app]. rewrite (H a (or_introl eq_refl)). cbn [andb]. f_equal. apply IH; [intros; apply H; now right|right; reflexivity].
Qed.
Lemma dd_dup border dup : forall l, (forall p, In p dup -> at_border border p = true) -> (forall p, In p l -> at_border border p = false) ->
  dd border true (dup ++ l) = l.
Proof.
  induction dup as [|a dup IH]; intros l H Hl; [now apply dd_none|]. cbn [dd app]. rewrite (H a (or_introl eq_refl)). cbn [andb].
  apply IH; [intros; apply H; now right|exact Hl].
Qed.

Lemma ascending_sorted (m : list P) : (forall p, In p m -> w_position w p <> None) -> ascending (map (w_position w) m) = true -> pos_sorted (w_position w) m.
Proof.
  intros NN A. apply Sorted_StronglySorted; [intros x y z; apply pos_le_trans|].
  induction m as [|a m IH]; [constructor|]. constructor; [apply IH; [intros; apply NN; now right|]|].
  - cbn [map] in A. destruct m as [|b m]; [reflexivity|]. cbn [map ascending] in A. apply andb_true_iff in A. exact (proj2 A).
  - destruct m as [|b m]; [constructor|]. constructor. cbn [map ascending] in A. apply andb_true_iff in A. destruct A as [A _].
    pose proof (NN a (or_introl eq_refl)) as Na. pose proof (NN b (or_intror (or_introl eq_refl))) as Nb.
    destruct (w_position w a) as [x|]; [|contradiction]. destruct (w_position w b) as [y|]; [|contradiction].
    cbn in *. apply negb_true_iff, Z.ltb_ge in A. now apply Z.leb_le.
Qed.

(** What join_adjacent does with the peaks of two neighbours meeting at [border]. *)
Definition joined (left right : list P) (border : Z) (m : list P) : Prop :=
  exists l1 dup l2, Permutation (l1 ++ dup ++ l2) (left ++ right) /\ pos_sorted (w_position w) (l1 ++ dup ++ l2) /\
    (forall p, In p dup <-> In p (l1 ++ dup ++ l2) /\ w_position w p = Some border) /\
    m = l1 ++ firstn 1 dup ++ l2.

Theorem C41_join_peaks :
  argsort_ok (w_argsort w) ->
  forall left right border, (forall p, In p (left ++ right) -> w_position w p <> None) ->
    joined left right border (join_model w left right border).
Proof.
  intros AS left right border NN. unfold join_model. set (both := left ++ right) in *. set (sorted := pick both (peaks_argsort w both)).
  assert (Pm : Permutation sorted both).
  { unfold sorted, peaks_argsort. destruct (ascending _); [rewrite map_length, pick_seq; reflexivity|].
    apply (sort_perm w AS both). }
  assert (So : pos_sorted (w_position w) sorted).
  { unfold sorted, peaks_argsort. destruct (ascending _) eqn:A; [rewrite map_length, pick_seq; now apply ascending_sorted|].
    apply (sort_sorted w AS both). }
  destruct (border_split border sorted So) as (l1 & dup & l2 & E & H1 & H2 & H3).
  exists l1, dup, l2. rewrite E in Pm, So. split; [exact Pm|]. split; [exact So|].
  assert (A1 : forall p, In p l1 -> at_border border p = false).
  { intros p Hp. destruct (H1 p Hp) as (x & Ex & L). unfold at_border. rewrite Ex. cbn. apply Z.eqb_neq. lia. }
  assert (A2 : forall p, In p dup -> at_border border p = true).
  { intros p Hp. unfold at_border. rewrite (H2 p Hp). cbn. apply Z.eqb_refl. }
  assert (A3 : forall p, In p l2 -> at_border border p = false).
  { intros p Hp. specialize (H3 p Hp). unfold at_border. destruct (w_position w p) as [x|]; [|reflexivity]. cbn. apply Z.eqb_neq. lia. }
  split.
  - intros p. split; [intros Hp; split; [rewrite !in_app_iff; auto|auto]|]. intros [Hp Ep]. rewrite !in_app_iff in Hp.
    assert (X : at_border border p = true) by (unfold at_border; rewrite Ep; apply Z.eqb_refl).
    destruct Hp as [Hp|[Hp|Hp]]; [rewrite A1 in X by exact Hp; discriminate|exact Hp|rewrite A3 in X by exact Hp; discriminate].
  - pose proof (join_fold border (peaks_argsort w both) (length left) sorted []) as J. cbn [app length rev] in J. rewrite J, E.
    rewrite dd_app by auto. f_equal. destruct dup as [|a dup]; [now apply dd_none|]. cbn [app dd firstn]. rewrite (A2 a (or_introl eq_refl)). cbn [andb].
    f_equal. apply dd_dup; [intros; apply A2; now right|exact A3].
Qed.

(** A consequence that contradicts the documentation ("peaks which are both out of the
    expected order and on the wrong side of the border are removed"): unless a peak
    sits exactly on the border, no peak is ever removed, wherever the peaks are. *)
Theorem C85_misplaced_never_removed_refuted :
  argsort_ok (w_argsort w) ->
  forall left right border, (forall p, In p (left ++ right) -> w_position w p <> None /\ w_position w p <> Some border) ->
    Permutation (join_model w left right border) (left ++ right).
Proof.
  intros AS left right border H. destruct (C41_join_peaks AS left right border) as (l1 & dup & l2 & Pm & _ & D & ->).
  { intros p Hp. now apply H. }
  assert (dup = []) as ->.
  { destruct dup as [|p dup]; [reflexivity|]. exfalso. destruct (proj1 (D p) (or_introl eq_refl)) as [Hin Ep].
    apply (Permutation_in _ Pm) in Hin. apply (H p Hin). exact Ep. }
  exact Pm.
Qed.

(** The whole operation, for two non-empty neighbouring clusters over the same data. *)
Definition neighbours (l r : cluster) : Prop :=
  c_r l = c_r r /\ c_y l = c_y r /\ c_e l = c_e r /\ c_em l = c_em r /\
  (c_start l < c_stop l)%nat /\ c_stop l = c_start r /\ (c_start r < c_stop r)%nat /\ (c_stop r <= length (adat (c_r l)))%nat /\
  data_ok l.

Definition join_result (l r : cluster) (base : option B) (c : cluster) : Prop :=
  c_start c = c_start l /\ c_stop c = c_stop r /\ c_r c = c_r l /\ c_y c = c_y l /\ c_e c = c_e l /\ c_em c = c_em l /\
  c_base c = base /\ c_last c = 0%nat /\ (forall f, In f (c_pf c) <-> In f (c_pf l) \/ In f (c_pf r)) /\ NoDup (c_pf c) /\
  (c_model r = [] -> c_model c = c_model l) /\ (c_model l = [] -> c_model c = c_model r) /\
  (c_model l <> [] -> c_model r <> [] -> exists r1 r2 y1 y2,
     nth_error (adat (c_r l)) (c_stop l - 1) = Some r1 /\ nth_error (adat (c_r l)) (c_stop l) = Some r2 /\
     nth_error (adat (c_y l)) (c_stop l - 1) = Some y1 /\ nth_error (adat (c_y l)) (c_stop l) = Some y2 /\
     c_model c = w_match_at w (w_mid w r1 r2) (w_mid w y1 y2) (join_model w (c_model l) (c_model r) (w_mid w r1 r2))).

Lemma pyget_in {A} (l : list A) i : (i < length l)%nat -> exists a, pyget l (Z.of_nat i) = Ok a /\ nth_error l i = Some a.
Proof.
  intros H. unfold pyget. destruct (Z.ltb_spec (Z.of_nat i) 0); [lia|]. destruct (Z.leb_spec (Z.of_nat (length l)) (Z.of_nat i)); [lia|].
  cbn [orb]. rewrite orb_false_r. destruct (Z.ltb_spec (Z.of_nat i) 0); [lia|]. rewrite Nat2Z.id. destruct (nth_error l i) eqn:E; [eauto|]. apply nth_error_None in E. lia.
Qed.

Lemma make_ok m bl r y e a b em pf : (forall x, w_rnd w x < 0 <-> x < 0) ->
  length (adat y) = length (adat r) -> length (adat e) = length (adat r) -> length (valuebl w bl (adat r)) = length (adat r) ->
  (a < b <= length (adat r))%nat -> exists v, make_cluster w m bl r y e (Some (a, b)) em pf = Ok (mkC m bl r y e a b v 0 em pf).
Proof.
  intros RO L1 L2 L3 H. unfold make_cluster, change_slice_from. cbn [c_model c_base c_r c_y c_e c_last c_em c_pf].
  destruct (all_below_spec (mkC m bl r y e 0 0 false 0 em pf) a b RO) as (v & E & _); [repeat split; assumption|exact H|].
  cbn [c_model c_base c_r c_y c_e] in E. rewrite E. exists v. reflexivity.
Qed.

Theorem C41_join_adjacent :
  (forall x, w_rnd w x < 0 <-> x < 0) ->
  forall l r, neighbours l r ->
    (opt_bl_eqb w (c_base l) (c_base r) = true -> exists c, join_adjacent w l r = Ok c /\ join_result l r (c_base l) c) /\
    (opt_bl_eqb w (c_base r) (c_base l) = true -> data_ok r -> exists c, join_adjacent w r l = Ok c /\ join_result l r (c_base r) c).
Proof.
  intros RO l r (E1 & E2 & E3 & E4 & H1 & H2 & H3 & H4 & (L1 & L2 & L3)).
  destruct (pyget_in (adat (c_r l)) (c_stop l - 1) ltac:(lia)) as (r1 & G1 & N1).
  destruct (pyget_in (adat (c_r l)) (c_stop l) ltac:(lia)) as (r2 & G2 & N2).
  destruct (pyget_in (adat (c_y l)) (c_stop l - 1) ltac:(lia)) as (y1 & G3 & N3).
  destruct (pyget_in (adat (c_y l)) (c_stop l) ltac:(lia)) as (y2 & G4 & N4).
  replace (Z.of_nat (c_stop l - 1)) with (Z.of_nat (c_stop l) - 1) in G1, G3 by lia.
  assert (PF : forall a b f, In f (union_nat a b) <-> In f a \/ In f b) by (intros; unfold union_nat; rewrite nodup_In, in_app_iff; reflexivity).
  assert (ND : forall a b, NoDup (union_nat a b)) by (intros; apply NoDup_nodup).
  assert (LEN : forall m : list P, (0 <? length m)%nat = match m with [] => false | _ => true end) by (intros [|]; reflexivity).
  assert (Bs : Nat.min (c_start l) (length (adat (c_r l))) = c_start l /\ Nat.min (c_stop l) (length (adat (c_r l))) = c_stop l /\
     Nat.min (c_start r) (length (adat (c_r l))) = c_start r /\ Nat.min (c_stop r) (length (adat (c_r l))) = c_stop r) by lia.
  destruct Bs as (B1 & B2 & B3 & B4). split.
  - intros EB. unfold join_adjacent. rewrite EB, <- E1, <- E2, <- E3, <- E4, !Nat.eqb_refl. cbn [negb].
    rewrite B1, B2, B3, B4. cbn [fst snd]. destruct (Nat.ltb_spec (c_start l) (c_start r)); [|lia]. cbn [fst snd].
    rewrite B1, B2, B3, B4. cbn [fst snd].
    rewrite <- H2, Nat.eqb_refl. cbn [negb]. rewrite <- E1, <- E2, G1, G2, G3, G4. cbn [bind]. rewrite !LEN.
    destruct (make_ok (if (match c_model l with [] => false | _ => true end && match c_model r with [] => false | _ => true end)%bool
       then w_match_at w (w_mid w r1 r2) (w_mid w y1 y2) (join_model w (c_model l) (c_model r) (w_mid w r1 r2))
       else if match c_model l with [] => false | _ => true end then c_model l else c_model r)
       (c_base l) (c_r l) (c_y l) (c_e l) (c_start l) (c_stop r) (c_em l) (union_nat (c_pf l) (c_pf r)) RO L1 L2 L3 ltac:(lia)) as (v & ->).
    eexists. split; [reflexivity|]. unfold join_result. cbn [c_model c_base c_r c_y c_e c_start c_stop c_last c_em c_pf].
    repeat (split; [reflexivity|]). split; [apply PF|]. split; [apply ND|].
    split; [intros ->; destruct (c_model l); reflexivity|]. split; [intros ->; reflexivity|].
    intros Hl Hr. exists r1, r2, y1, y2. repeat (split; [assumption|]). destruct (c_model l); [contradiction|]. destruct (c_model r); [contradiction|]. reflexivity.
  - intros EB (L1' & L2' & L3'). unfold join_adjacent. rewrite EB, E1, E2, E3, E4, !Nat.eqb_refl. cbn [negb].
    rewrite <- E1, B1, B2, B3, B4. cbn [fst snd]. destruct (Nat.ltb_spec (c_start r) (c_start l)); [lia|]. cbn [fst snd].
    rewrite B1, B2, B3, B4. cbn [fst snd].
    rewrite <- H2, Nat.eqb_refl. cbn [negb]. rewrite <- E1, <- E2, G1, G2, G3, G4. cbn [bind]. rewrite !LEN.
    rewrite <- E3. rewrite <- E1, <- E2, <- E3 in *.
    destruct (make_ok (if (match c_model r with [] => false | _ => true end && match c_model l with [] => false | _ => true end)%bool
       then w_match_at w (w_mid w r1 r2) (w_mid w y1 y2) (join_model w (c_model l) (c_model r) (w_mid w r1 r2))
       else if match c_model r with [] => false | _ => true end then c_model r else c_model l)
       (c_base r) (c_r l) (c_y l) (c_e l) (c_start l) (c_stop r) (c_em r) (union_nat (c_pf r) (c_pf l)) RO L1 L2 L3' ltac:(lia)) as (v & ->).
    eexists. split; [reflexivity|]. unfold join_result. cbn [c_model c_base c_r c_y c_e c_start c_stop c_last c_em c_pf].
    repeat (split; [first [reflexivity|symmetry; assumption]|]). split; [intros f; rewrite PF; tauto|]. split; [apply ND|].
    split; [intros ->; reflexivity|]. split; [intros ->; destruct (c_model r); reflexivity|].
    intros Hl Hr. exists r1, r2, y1, y2. repeat (split; [assumption|]). destruct (c_model l); [contradiction|]. destruct (c_model r); [contradiction|]. reflexivity.
Qed.

(** Clusters that do not share data or method, or do not touch, are rejected. *)
Theorem C41_rejects :
  forall m1 m2,
    aid (c_r m1) <> aid (c_r m2) \/ aid (c_y m1) <> aid (c_y m2) \/ aid (c_e m1) <> aid (c_e m2) \/ c_em m1 <> c_em m2 \/
    opt_bl_eqb w (c_base m1) (c_base m2) = false \/
    ((c_stop m1 <= length (adat (c_r m1)) /\ c_stop m2 <= length (adat (c_r m1)) /\ c_start m1 < c_stop m1 /\ c_start m2 < c_stop m2)%nat /\
      c_stop m1 <> c_start m2 /\ c_stop m2 <> c_start m1) ->
    join_adjacent w m1 m2 = Err ValueError.
Proof.
  intros m1 m2 H. unfold join_adjacent.
  destruct (Nat.eqb_spec (aid (c_r m1)) (aid (c_r m2))) as [X1|]; [cbn [negb]|reflexivity].
  destruct (Nat.eqb_spec (aid (c_y m1)) (aid (c_y m2))) as [X2|]; [cbn [negb]|reflexivity].
  destruct (Nat.eqb_spec (aid (c_e m1)) (aid (c_e m2))) as [X3|]; [cbn [negb]|reflexivity].
  destruct (Nat.eqb_spec (c_em m1) (c_em m2)) as [X4|]; [cbn [negb]|reflexivity].
  destruct (opt_bl_eqb w (c_base m1) (c_base m2)) eqn:X5; [cbn [negb]|reflexivity].
  destruct H as [H|[H|[H|[H|[H|H]]]]]; try contradiction; try discriminate. cbn [fst snd].
  destruct (Nat.ltb_spec (Nat.min (c_start m1) (length (adat (c_r m1)))) (Nat.min (c_start m2) (length (adat (c_r m1))))); cbn [fst snd];
  match goal with |- context [Nat.eqb ?a ?b] => destruct (Nat.eqb_spec a b); [lia|reflexivity] end.
Qed.

End Props.
Print Assumptions C14_cluster_npars.
Print Assumptions C38_replace.
Print Assumptions C38_replace_any_slice.
Print Assumptions C38_deletepeak.
Print Assumptions C84_deletepeak_last_refuted.
Print Assumptions C40_cleanfit_exact.
Print Assumptions C40_empty_cluster.
Print Assumptions C39_never_fit.
Print Assumptions C37_fit_never_worse.
Print Assumptions C37_kept_model.
Print Assumptions C83_shared_objects_refuted.
Print Assumptions C45_contingent.
Print Assumptions C45_no_refit_without_growth.
Print Assumptions C45_last_fit_size.
Print Assumptions C41_join_peaks.
Print Assumptions C85_misplaced_never_removed_refuted.
Print Assumptions C41_join_adjacent.
Print Assumptions C41_rejects.

(** ** A concrete world: a peak is (position, height, removable), with the value
    [height] at its position and 0 elsewhere; a baseline is a constant; the quality is
    minus the sum of absolute residuals. *)
Definition xpeak := (option Z * Z * bool)%type.
Definition xp (x h : Z) (rm : bool) : xpeak := (Some x, h, rm).
Definition xvalue (p : xpeak) (r : list Z) : list Z :=
  map (fun x => if pos_eq (Some x) (fst (fst p)) then snd (fst p) else 0) r.
Definition xmodelvalue (m : list xpeak) (b : option Z) (x : Z) : Z :=
  fold_right Z.add (match b with None => 0 | Some v => v end) (map (fun p => hd 0 (xvalue p [x])) m).
Definition xquality (c : cluster xpeak Z) : Z :=
  - fold_right Z.add 0 (map (fun xy => Z.abs (snd xy - xmodelvalue (c_model c) (c_base c) (fst xy))) (combine (r_cluster c) (y_cluster c))).
Definition xworld (engine : list xpeak -> option Z -> cluster xpeak Z -> nat -> (list xpeak * option Z) * result unit) : world xpeak Z Z :=
  mkWorld (fun x => x) (fun p => fst (fst p)) snd (fun p => match fst (fst p) with None => true | _ => false end)
    xvalue (fun cf p => 3%nat) (fun cf b => 1%nat) (fun b r => map (fun _ => b) r) Z.eqb isort (fun _ => 3%nat)
    xquality Z.ltb (fun _ _ _ => false) (fun c => Ok (Some (xp 2 9 true))) engine (fun a b => (a + b) / 2) (fun _ _ m => m).
Definition idle : list xpeak -> option Z -> cluster xpeak Z -> nat -> (list xpeak * option Z) * result unit :=
  fun m b _ _ => ((m, b), Ok tt).
Definition xr := mkArr 0 [0; 1; 2; 3; 4; 5].
Definition xy := mkArr 1 [1; 1; 9; 1; 1; 1].
Definition xe := mkArr 2 [3; 3; 3; 3; 3; 3].
Definition xc0 : cluster xpeak Z := mkC [] None xr xy xe 3 5 true 0 0 [7%nat].

Example C38_nonvacuous :
  replacepeaks (xworld idle) [xp 1 5 true; xp 4 6 true] [xp 2 7 true] (Some 0) (Some 1) = ([xp 2 7 true; xp 4 6 true], Ok tt) /\
  replacepeaks (xworld idle) [xp 1 5 true; xp 4 6 true] [xp 2 7 true] (Some 0) (Some 0) = ([xp 1 5 true; xp 2 7 true; xp 4 6 true], Ok tt) /\
  replacepeaks (xworld idle) [xp 1 5 false; xp 4 6 true] [] (Some 0) (Some 2) = ([xp 1 5 false; xp 4 6 true], Err ValueError) /\
  deletepeak (xworld idle) [xp 1 5 true; xp 4 6 true] (-1) = ([xp 1 5 true; xp 4 6 true], Ok tt) /\
  deletepeak (xworld idle) [xp 1 5 true; xp 4 6 true] (-2) = ([xp 4 6 true], Ok tt) /\ argsort_ok (w_argsort (xworld idle)).
Proof. repeat split; try reflexivity; apply isort_ok. Qed.

(** Growing from the quiet slice 3:5 to 2:5 reaches the loud point 2. *)
Example C39_nonvacuous :
  make_cluster (xworld idle) [] None xr xy xe (Some (3, 5)%nat) 0 [7%nat] = Ok xc0 /\ data_ok (xworld idle) xc0 /\ c_never xc0 = true /\
  c_never (fst (run_slices (xworld idle) xc0 [(3, 6); (2, 6)]%nat)) = false /\
  c_never (fst (run_slices (xworld idle) xc0 [(3, 6); (4, 6)]%nat)) = true.
Proof. repeat split; reflexivity. Qed.

Example C40_nonvacuous :
  cleanfit (xworld idle) [xp 0 5 true; xp 1 5 false; xp 3 1 true; xp 5 1 true; xp 9 1 false; (None, 1, false)] [3; 4; 5] [3; 3; 3] =
    Ok ([xp 1 5 false; xp 3 1 true; xp 9 1 false], 3%nat) /\
  cleanfit (xworld idle) [xp 5 4 true] [3; 4; 5] [3; 3; 3] = Ok ([xp 5 4 true], 0%nat).
Proof. split; reflexivity. Qed.

(** An empty cluster gets the estimated peak, an improving fit is kept, a worsening one
    is undone, a failing one too - but then the shared baseline object is left changed. *)
Definition xc1 : cluster xpeak Z := mkC [xp 2 5 true] (Some 0) xr xy xe 0 6 false 0 0 [7%nat].
Definition sethgt (h : Z) : list xpeak -> option Z -> cluster xpeak Z -> nat -> (list xpeak * option Z) * result unit :=
  fun m b _ _ => ((map (fun p : xpeak => (fst (fst p), h, snd p)) m, b), Ok tt).
Definition blowup : list xpeak -> option Z -> cluster xpeak Z -> nat -> (list xpeak * option Z) * result unit :=
  fun m b _ _ => ((m, option_map (fun v => v + 100) b), Err FitError).
Example C37_nonvacuous :
  fr_out (fit (xworld (sethgt 9)) xc1 false 0 false true) = Ok (Some (-5)) /\
  c_model (fr_c (fit (xworld (sethgt 9)) xc1 false 0 false true)) = [xp 2 9 true] /\
  fr_out (fit (xworld (sethgt 50)) xc1 false 0 false true) = Ok None /\
  c_model (fr_c (fit (xworld (sethgt 50)) xc1 false 0 false true)) = [xp 2 5 true] /\
  c_model (fr_c (fit (xworld idle) (set_model xc1 []) false 0 false true)) = [xp 2 9 true] /\
  (let r := fit (xworld blowup) xc1 false 0 true true in
     fr_out r = Ok None /\ c_base (fr_c r) = Some 0 /\ fr_base r = Some 100).
Proof. repeat split; reflexivity. Qed.

Definition xl : cluster xpeak Z := mkC [xp 1 5 true; xp 4 1 true] None xr xy xe 0 3 false 0 0 [7%nat].
Definition xrc : cluster xpeak Z := mkC [xp 2 5 true; xp 5 1 true] None xr xy xe 3 6 false 0 0 [8%nat; 7%nat].
Example C41_nonvacuous :
  neighbours (xworld idle) xl xrc /\
  match join_adjacent (xworld idle) xl xrc with
  | Ok c => c_model c = [xp 1 5 true; xp 2 5 true; xp 4 1 true; xp 5 1 true] /\ (c_start c, c_stop c) = (0, 6)%nat
  | Err _ => False
  end /\
  join_model (xworld idle) [xp 1 5 true; xp 2 6 false] [xp 2 5 true; xp 5 1 true] 2 = [xp 1 5 true; xp 2 6 false; xp 5 1 true] /\
  join_adjacent (xworld idle) xl (mkC [] None xr xy xe 4 6 false 0 0 []) = Err ValueError.
Proof. unfold neighbours, data_ok. cbn. repeat split; lia. Qed.

Example C45_nonvacuous :
  fr_out (contingent_fit (xworld (sethgt 9)) xc1 3 3 2) = Ok (Some (-5)) /\
  fr_out (contingent_fit (xworld (sethgt 9)) xc1 7 3 2) = Ok None /\
  c_last (fr_c (fit (xworld (sethgt 9)) xc1 false 0 false true)) = 6%nat.
Proof. repeat split; reflexivity. Qed.

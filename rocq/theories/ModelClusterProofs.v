(** Lemmas about ModelCluster.v. *)
From Coq Require Import Permutation Sorted.
From Verif Require Import Prelude ModelCluster.
Open Scope Z_scope.

(** ** slices *)
Lemma slice_length {A} (l : list A) a b : length (slice l a b) = (Nat.min b (length l) - a)%nat.
Proof. unfold slice. rewrite firstn_length, skipn_length. lia. Qed.
Lemma nth_error_skipn {A} (l : list A) a i : nth_error (skipn a l) i = nth_error l (a + i).
Proof. revert l. induction a as [|a IH]; intros l; [reflexivity|]. destruct l; [destruct i; reflexivity|]. cbn. apply IH. Qed.
Lemma nth_error_firstn {A} (l : list A) k i : nth_error (firstn k l) i = if (i <? k)%nat then nth_error l i else None.
Proof.
  revert l i. induction k as [|k IH]; intros l i; [destruct i; reflexivity|].
  destruct l as [|x l]; [replace (nth_error (firstn (S k) (@nil A)) i) with (@None A) by (destruct i; reflexivity); replace (nth_error (@nil A) i) with (@None A) by (destruct i; reflexivity); destruct (i <? S k)%nat; reflexivity|]. destruct i; [reflexivity|]. cbn [firstn nth_error].
  rewrite IH. reflexivity.
Qed.
Lemma nth_error_slice {A} (l : list A) a b i : nth_error (slice l a b) i = if (i <? b - a)%nat then nth_error l (a + i) else None.
Proof. unfold slice. rewrite nth_error_firstn, nth_error_skipn. reflexivity. Qed.
Lemma combine_slice {A C} (l1 : list A) (l2 : list C) a b : combine (slice l1 a b) (slice l2 a b) = slice (combine l1 l2) a b.
Proof.
  assert (S1 : forall a (l1 : list A) (l2 : list C), combine (skipn a l1) (skipn a l2) = skipn a (combine l1 l2)).
  { clear. intros a. induction a as [|a IH]; intros [|x l1] [|y l2]; cbn; auto. destruct (skipn a l1); reflexivity. }
  assert (S2 : forall a (l1 : list A) (l2 : list C), combine (firstn a l1) (firstn a l2) = firstn a (combine l1 l2)).
  { clear. intros a. induction a as [|a IH]; intros [|x l1] [|y l2]; cbn; auto. now rewrite IH. }
  unfold slice. now rewrite S2, S1.
Qed.

(** ** pymax *)
Lemma fold_max_spec l : forall a, a <= fold_left (fun m x => if m <? x then x else m) l a /\
  (forall x, In x l -> x <= fold_left (fun m x => if m <? x then x else m) l a) /\
  In (fold_left (fun m x => if m <? x then x else m) l a) (a :: l).
Proof.
  induction l as [|b l IH]; intros a; cbn [fold_left].
  - split; [lia|]. split; [intros x []|left; reflexivity].
  - destruct (IH (if a <? b then b else a)) as (H1 & H2 & H3). destruct (Z.ltb_spec a b); (split; [lia|split]).
    + intros x [<-|Hx]; [lia|auto].
    + destruct H3 as [H3|H3]; [right; left; exact H3|right; right; exact H3].
    + intros x [<-|Hx]; [lia|auto].
    + destruct H3 as [H3|H3]; [left; exact H3|right; right; exact H3].
Qed.
Lemma pymax_neg l m : pymax l = Ok m -> (m <? 0) = true <-> (forall x, In x l -> x < 0).
Proof.
  destruct l as [|a l]; [discriminate|]. cbn [pymax]. intros E. assert (E' : fold_left (fun m x => if m <? x then x else m) l a = m) by congruence.
  destruct (fold_max_spec l a) as (H1 & H2 & H3). rewrite E' in *. rewrite Z.ltb_lt. split.
  - intros Hm x [<-|Hx]; [lia|]. specialize (H2 x Hx). lia.
  - intros H. apply H. exact H3.
Qed.
Lemma pymax_ok l : l <> [] -> exists m, pymax l = Ok m.
Proof. destruct l; [contradiction|]. intros _. eexists. reflexivity. Qed.

(** ** pick and argsort *)
Lemma pick_app {A} (l : list A) i j : pick l (i ++ j) = pick l i ++ pick l j.
Proof. unfold pick. apply flat_map_app. Qed.
Lemma pick_seq {A} (l : list A) : pick l (seq 0 (length l)) = l.
Proof.
  assert (G : forall (l pre : list A), pick (pre ++ l) (seq (length pre) (length l)) = l).
  { clear l. induction l as [|a l IH]; intros pre; [reflexivity|]. cbn [length seq pick flat_map].
    rewrite nth_error_app2, Nat.sub_diag by lia. cbn [nth_error app]. f_equal.
    specialize (IH (pre ++ [a])). rewrite <- app_assoc in IH. rewrite app_length in IH. cbn [length app] in IH.
    rewrite Nat.add_1_r in IH. exact IH. }
  exact (G l []).
Qed.
Lemma pick_perm {A} (l : list A) i j : Permutation i j -> Permutation (pick l i) (pick l j).
Proof. intros H. unfold pick. now apply Permutation_flat_map. Qed.
Lemma pick_map {A C} (f : A -> C) l i : map f (pick l i) = pick (map f l) i.
Proof.
  induction i as [|a i IH]; [reflexivity|]. cbn [pick flat_map]. rewrite map_app. f_equal; [|exact IH].
  rewrite nth_error_map. destruct (nth_error l a); reflexivity.
Qed.

(** numpy's argsort: a permutation of the indices that sorts the keys (NaN last). *)
Definition argsort_ok (f : list (option Z) -> list nat) : Prop :=
  forall ks, Permutation (f ks) (seq 0 (length ks)) /\ StronglySorted (fun a b => pos_le a b = true) (pick ks (f ks)).
Definition pos_sorted {P} (pos : P -> option Z) (m : list P) : Prop :=
  StronglySorted (fun p q => pos_le (pos p) (pos q) = true) m.

Lemma sorted_map {A} (f : A -> option Z) l : StronglySorted (fun a b => pos_le a b = true) (map f l) -> pos_sorted f l.
Proof.
  induction l as [|a l IH]; intros H; [constructor|]. inversion H as [|? ? H1 H2]; subst. constructor; [apply IH; exact H1|].
  rewrite Forall_forall in *. intros x Hx. apply H2. now apply in_map.
Qed.
Lemma pos_le_refl a : pos_le a a = true.
Proof. destruct a; cbn; [apply Z.leb_refl|reflexivity]. Qed.
Lemma pos_le_trans a b c : pos_le a b = true -> pos_le b c = true -> pos_le a c = true.
Proof. destruct a, b, c; cbn; auto; try discriminate. rewrite !Z.leb_le. lia. Qed.
Lemma pos_le_total a b : pos_le a b = true \/ pos_le b a = true.
Proof. destruct a, b; cbn; auto. rewrite !Z.leb_le. lia. Qed.

Section Sort.
Context {P B Q : Type} (w : world P B Q).
Hypothesis AS : argsort_ok (w_argsort w).
Lemma sort_perm m : Permutation (sort_peaks w m) m.
Proof.
  unfold sort_peaks. destruct (AS (map (w_position w) m)) as [H _]. rewrite map_length in H.
  transitivity (pick m (seq 0 (length m))); [apply pick_perm; exact H|]. rewrite pick_seq. reflexivity.
Qed.
Lemma sort_sorted m : pos_sorted (w_position w) (sort_peaks w m).
Proof. apply sorted_map. unfold sort_peaks. rewrite pick_map. apply (AS (map (w_position w) m)). Qed.
Lemma sort_nil : sort_peaks w [] = [].
Proof. apply Permutation_nil. symmetry. apply sort_perm. Qed.
End Sort.

(** An insertion sort that meets the specification of argsort. *)
Fixpoint ins_idx (ks : list (option Z)) (i : nat) (l : list nat) : list nat :=
  match l with
  | [] => [i]
  | j :: r => if pos_le (nth i ks None) (nth j ks None) then i :: l else j :: ins_idx ks i r
  end.
Definition isort (ks : list (option Z)) : list nat := fold_right (ins_idx ks) [] (seq 0 (length ks)).
Lemma ins_perm ks i l : Permutation (ins_idx ks i l) (i :: l).
Proof. induction l as [|j l IH]; [reflexivity|]. cbn. destruct (pos_le _ _); [reflexivity|]. rewrite IH. apply perm_swap. Qed.
Lemma ins_sorted ks i l : StronglySorted (fun a b => pos_le (nth a ks None) (nth b ks None) = true) l ->
  StronglySorted (fun a b => pos_le (nth a ks None) (nth b ks None) = true) (ins_idx ks i l).
Proof.
  induction 1 as [|j l S IH F]; cbn; [repeat constructor|]. destruct (pos_le _ _) eqn:E.
  - constructor; [constructor; assumption|]. constructor; [exact E|]. rewrite Forall_forall in *. intros x Hx.
    eapply pos_le_trans; [exact E|]. apply F. exact Hx.
  - constructor; [exact IH|]. rewrite Forall_forall in *. intros x Hx.
    apply (Permutation_in _ (ins_perm ks i l)) in Hx. destruct Hx as [<-|Hx]; [|apply F; exact Hx].
    destruct (pos_le_total (nth i ks None) (nth j ks None)); congruence.
Qed.
Lemma isort_ok : argsort_ok isort.
Proof.
  intros ks. unfold isort.
  assert (Pm : forall l, Permutation (fold_right (ins_idx ks) [] l) l).
  { induction l as [|a l IH]; [reflexivity|]. cbn. rewrite ins_perm. now constructor. }
  split; [apply Pm|].
  assert (So : forall l, StronglySorted (fun a b => pos_le (nth a ks None) (nth b ks None) = true) (fold_right (ins_idx ks) [] l)).
  { induction l as [|a l IH]; [constructor|]. cbn. apply ins_sorted. exact IH. }
  specialize (So (seq 0 (length ks))).
  assert (In_ : forall i, In i (fold_right (ins_idx ks) [] (seq 0 (length ks))) -> (i < length ks)%nat).
  { intros i Hi. apply (Permutation_in _ (Pm _)) in Hi. apply in_seq in Hi. lia. }
  induction (fold_right (ins_idx ks) [] (seq 0 (length ks))) as [|i l IH]; [constructor|].
  cbn [pick flat_map]. pose proof (In_ i (or_introl eq_refl)) as Hi. rewrite (nth_error_nth' _ None Hi). cbn [app].
  inversion So as [|? ? S1 F1]; subst. constructor; [apply IH; [exact S1|intros; apply In_; now right]|].
  rewrite Forall_forall in *. intros x Hx. unfold pick in Hx. apply in_flat_map in Hx. destruct Hx as (j & Hj & Hx).
  pose proof (In_ j (or_intror Hj)) as Hj'. rewrite (nth_error_nth' _ None Hj') in Hx. destruct Hx as [<-|[]]. apply F1. exact Hj.
Qed.

(** ** deletion by index *)
Lemma del_at_app {A} (l1 l2 : list A) a i : i = length l1 -> del_at (l1 ++ a :: l2) i = l1 ++ l2.
Proof. intros ->. unfold del_at. rewrite firstn_app, Nat.sub_diag, firstn_all, firstn_O, app_nil_r. rewrite skipn_app, skipn_all2 by lia.
  replace (S (length l1) - length l1)%nat with 1%nat by lia. reflexivity. Qed.
Fixpoint keep_idx {A} (bad : nat -> bool) (k : nat) (l : list A) : list A :=
  match l with [] => [] | a :: r => if bad k then keep_idx bad (S k) r else a :: keep_idx bad (S k) r end.
Lemma delete_many {A} (bad : nat -> bool) (l : list A) : forall pre k, k = length pre ->
  fold_left del_at (rev (filter bad (seq k (length l)))) (pre ++ l) = pre ++ keep_idx bad k l.
Proof.
  induction l as [|a l IH]; intros pre k Hk; [reflexivity|]. cbn [length seq filter keep_idx].
  specialize (IH (pre ++ [a]) (S k)). rewrite app_length in IH. cbn [length] in IH. specialize (IH ltac:(lia)).
  rewrite <- app_assoc in IH. cbn [app] in IH. destruct (bad k).
  - cbn [rev]. rewrite fold_left_app, IH. cbn [fold_left]. rewrite <- app_assoc. cbn [app]. apply del_at_app. exact Hk.
  - rewrite IH, <- app_assoc. reflexivity.
Qed.
Lemma keep_idx_filter {A} (bad : nat -> bool) (f : A -> bool) (l : list A) : forall k,
  (forall i a, nth_error l i = Some a -> bad (k + i)%nat = negb (f a)) -> keep_idx bad k l = filter f l.
Proof.
  induction l as [|a l IH]; intros k H; [reflexivity|]. cbn [keep_idx filter].
  pose proof (H 0%nat a eq_refl) as H0. rewrite Nat.add_0_r in H0. rewrite H0.
  rewrite (IH (S k)); [destruct (f a); reflexivity|]. intros i b Hi. specialize (H (S i) b Hi). now rewrite Nat.add_succ_r in H.
Qed.
Lemma filter_idx_length {A} (bad : nat -> bool) (f : A -> bool) (l : list A) : forall k,
  (forall i a, nth_error l i = Some a -> bad (k + i)%nat = negb (f a)) ->
  length (filter bad (seq k (length l))) = length (filter (fun a => negb (f a)) l).
Proof.
  induction l as [|a l IH]; intros k H; [reflexivity|]. cbn [length seq filter].
  pose proof (H 0%nat a eq_refl) as H0. rewrite Nat.add_0_r in H0. rewrite H0.
  assert (E : length (filter bad (seq (S k) (length l))) = length (filter (fun a => negb (f a)) l)); [apply IH|destruct (f a); cbn [negb length]; rewrite E; reflexivity]. intros i b Hi. specialize (H (S i) b Hi). now rewrite Nat.add_succ_r in H.
Qed.

(** ** searchsorted on sorted positions *)
Lemma searchsorted_spec (l : list (option Z)) v : StronglySorted (fun a b => pos_le a b = true) l ->
  forall i a, nth_error l i = Some a ->
    ((i < searchsorted_pos l v)%nat <-> match a with Some x => x < v | None => False end).
Proof.
  induction 1 as [|b l S IH F]; intros i a Hi; [destruct i; discriminate|].
  rewrite Forall_forall in F. destruct i as [|i]; cbn [nth_error] in Hi.
  - assert (b = a) by congruence. subst b. cbn. destruct a as [x|]; [|split; [lia|tauto]].
    destruct (Z.ltb_spec x v); split; lia.
  - assert (Fa : pos_le b a = true) by (apply F; eapply nth_error_In; exact Hi).
    specialize (IH i a Hi). cbn. destruct b as [x|].
    + destruct (Z.ltb_spec x v).
      * rewrite <- IH. lia.
      * split; [lia|]. destruct a as [y|]; [|tauto]. cbn in Fa. apply Z.leb_le in Fa. lia.
    + split; [lia|]. destruct a; cbn in Fa; [discriminate|tauto].
Qed.
Lemma searchsorted_le (l : list (option Z)) v : (searchsorted_pos l v <= length l)%nat.
Proof. induction l as [|[a|] l IH]; cbn; try lia. destruct (_ <? _); cbn; lia. Qed.

(** ** slice bounds *)
Lemma slice_bounds_le n s t : (fst (slice_bounds n s t) <= snd (slice_bounds n s t))%nat /\ (snd (slice_bounds n s t) <= n)%nat.
Proof.
  unfold slice_bounds, clamp. cbn [fst snd]. split; [lia|].
  destruct s as [s|], t as [t|]; try destruct (Z.ltb_spec s 0); try destruct (Z.ltb_spec t 0); lia.
Qed.
Lemma skipn_add {A} a : forall k (l : list A), skipn k (skipn a l) = skipn (a + k) l.
Proof. induction a as [|a IH]; intros k [|x l]; cbn; auto. destruct k; reflexivity. Qed.
Lemma slice_split {A} (l : list A) a b : (a <= b)%nat -> l = firstn a l ++ slice l a b ++ skipn b l.
Proof.
  intros H. unfold slice. rewrite <- (firstn_skipn a l) at 1. f_equal.
  rewrite <- (firstn_skipn (b - a) (skipn a l)) at 1. f_equal. rewrite skipn_add. f_equal. lia.
Qed.

(** Lemmas for Covariance.v. *)
From Coq Require Import Reals Lra Lia.
From Verif Require Import Prelude Covariance.
Open Scope R_scope.

(** Number of [true] among the first k flags. *)
Definition rank (l : list bool) (k : nat) : nat := length (filter (fun b => b) (firstn k l)).
(** Where the parameters of part p begin. *)
Definition offset (m : list cpart) (p : nat) : nat := total (firstn p m).

Lemma row_loop_ok : forall free j raw src acc k,
  row_loop free j raw src acc k =
  if Nat.leb j k && nth (k - j) free false then src (raw + rank free (k - j))%nat else acc k.
Proof.
  induction free as [|b r IH]; intros j raw src acc k; cbn [row_loop].
  - destruct (Nat.leb j k); cbn [andb]; [|reflexivity]. destruct (k - j)%nat; reflexivity.
  - destruct b; rewrite IH; clear IH.
    + destruct (Nat.leb_spec (S j) k) as [L|L].
      * assert (Nat.leb j k = true) as -> by (apply Nat.leb_le; lia). cbn [andb].
        replace (k - j)%nat with (S (k - S j)) by lia. cbn [nth].
        destruct (nth (k - S j) r false).
        { f_equal. unfold rank. cbn [firstn filter length]. lia. }
        unfold put. assert (Nat.eqb k j = false) as -> by (apply Nat.eqb_neq; lia). reflexivity.
      * cbn [andb]. unfold put. destruct (Nat.eqb_spec k j) as [->|Ne].
        { rewrite Nat.leb_refl, Nat.sub_diag. cbn [andb nth]. f_equal. unfold rank. cbn. lia. }
        assert (Nat.leb j k = false) as -> by (apply Nat.leb_gt; lia). reflexivity.
    + destruct (Nat.leb_spec (S j) k) as [L|L].
      * assert (Nat.leb j k = true) as -> by (apply Nat.leb_le; lia). cbn [andb].
        replace (k - j)%nat with (S (k - S j)) by lia. cbn [nth]. unfold rank. reflexivity.
      * cbn [andb]. destruct (Nat.leb_spec j k) as [L2|L2]; [|reflexivity].
        replace (k - j)%nat with 0%nat by lia. reflexivity.
Qed.

Lemma mat_loop_ok : forall all free i raw src acc a b,
  mat_loop all free i raw src acc a b =
  if Nat.leb i a && nth (a - i) free false then row_loop all 0 0 (src (raw + rank free (a - i))%nat) (acc a) b else acc a b.
Proof.
  intros all free. induction free as [|f r IH]; intros i raw src acc a b; cbn [mat_loop].
  - destruct (Nat.leb i a); cbn [andb]; [|reflexivity]. destruct (a - i)%nat; reflexivity.
  - destruct f; rewrite IH; clear IH.
    + destruct (Nat.leb_spec (S i) a) as [L|L].
      * assert (Nat.leb i a = true) as -> by (apply Nat.leb_le; lia). cbn [andb].
        replace (a - i)%nat with (S (a - S i)) by lia. cbn [nth].
        assert (Nat.eqb a i = false) as -> by (apply Nat.eqb_neq; lia).
        destruct (nth (a - S i) r false); [|reflexivity].
        f_equal. f_equal. unfold rank. cbn [firstn filter length]. lia.
      * cbn [andb]. destruct (Nat.eqb_spec a i) as [->|Ne].
        { rewrite Nat.leb_refl, Nat.sub_diag. cbn [andb nth]. f_equal. f_equal. unfold rank. cbn. lia. }
        assert (Nat.leb i a = false) as -> by (apply Nat.leb_gt; lia). reflexivity.
    + destruct (Nat.leb_spec (S i) a) as [L|L].
      * assert (Nat.leb i a = true) as -> by (apply Nat.leb_le; lia). cbn [andb].
        replace (a - i)%nat with (S (a - S i)) by lia. cbn [nth]. unfold rank. reflexivity.
      * cbn [andb]. destruct (Nat.leb_spec i a) as [L2|L2]; [|reflexivity].
        replace (a - i)%nat with 0%nat by lia. reflexivity.
Qed.

Lemma expand_ok n free v a b :
  at_ (expand n free v) a b =
  if nth a free false && nth b free false then at_ v (rank free a) (rank free b) else 0.
Proof.
  unfold expand. cbn [at_]. rewrite mat_loop_ok. cbn [Nat.leb]. rewrite Nat.sub_0_r. cbn [andb].
  destruct (nth a free false); cbn [andb]; [|reflexivity].
  rewrite row_loop_ok. cbn [Nat.leb]. rewrite Nat.sub_0_r. cbn [andb Nat.add]. reflexivity.
Qed.

(** *** The maps *)
Lemma map_pars_ok : forall k i j n pm ip pm' ip', map_pars i j n k pm ip = (pm', ip') ->
  (forall q, pm' q = if Nat.eqb (fst q) i && Nat.leb j (snd q) && Nat.ltb (snd q) (j + k) then Some (n + (snd q - j))%nat else pm q) /\
  (forall x, ip' x = if Nat.leb n x && Nat.ltb x (n + k) then Some (i, j + (x - n))%nat else ip x).
Proof.
  induction k as [|k IH]; intros i j n pm ip pm' ip' H; cbn [map_pars] in H.
  - injection H as <- <-. split.
    + intros [a b]. cbn [fst snd]. destruct (Nat.eqb a i); cbn [andb]; [|reflexivity].
      destruct (Nat.leb_spec j b), (Nat.ltb_spec b (j + 0)); cbn [andb]; try reflexivity; lia.
    + intros x. destruct (Nat.leb_spec n x), (Nat.ltb_spec x (n + 0)); cbn [andb]; try reflexivity; lia.
  - apply IH in H. destruct H as [P Q]. split.
    + intros [a b]. rewrite P. unfold set2. cbn [fst snd]. destruct (Nat.eqb_spec a i); cbn [andb]; [|reflexivity].
      destruct (Nat.eqb_spec b j) as [->|Ne].
      * destruct (Nat.leb_spec (S j) j), (Nat.ltb_spec j (S j + k)), (Nat.leb_spec j j), (Nat.ltb_spec j (j + S k)); cbn [andb];
          try reflexivity; try lia. f_equal. lia.
      * destruct (Nat.leb_spec (S j) b), (Nat.ltb_spec b (S j + k)), (Nat.leb_spec j b), (Nat.ltb_spec b (j + S k)); cbn [andb];
          try reflexivity; try lia. f_equal. lia.
    + intros x. rewrite Q. unfold set1. destruct (Nat.eqb_spec x n) as [->|Ne].
      * destruct (Nat.leb_spec (S n) n), (Nat.ltb_spec n (S n + k)), (Nat.leb_spec n n), (Nat.ltb_spec n (n + S k)); cbn [andb];
          try reflexivity; try lia. do 2 f_equal. lia.
      * destruct (Nat.leb_spec (S n) x), (Nat.ltb_spec x (S n + k)), (Nat.leb_spec n x), (Nat.ltb_spec x (n + S k)); cbn [andb];
          try reflexivity; try lia. do 2 f_equal. lia.
Qed.

Lemma total_cons p m : total (p :: m) = (cp_npars p + total m)%nat.
Proof. reflexivity. Qed.
Lemma offset_S p m k : offset (p :: m) (S k) = (cp_npars p + offset m k)%nat.
Proof. unfold offset. cbn [firstn]. apply total_cons. Qed.
Lemma offset_0 m : offset m 0 = 0%nat. Proof. reflexivity. Qed.

(** Parameters of part k, 0 when there is no such part. *)
Definition npar (m : list cpart) (k : nat) : nat := match nth_error m k with Some p => cp_npars p | None => 0%nat end.

Lemma map_parts_n : forall m i n mm pm ip, fst (map_parts i n m mm pm ip) = (n + total m)%nat.
Proof.
  induction m as [|p m IH]; intros; cbn [map_parts]; [cbn; lia|].
  destruct (map_pars i 0 n (cp_npars p) pm ip) as [pm' ip'].
  rewrite IH, total_cons. lia.
Qed.

Lemma map_parts_ok : forall m i n mm pm ip n' mm' pm' ip', map_parts i n m mm pm ip = (n', (mm', pm', ip')) ->
  (forall k x, (x < npar m k)%nat -> pm' (i + k, x)%nat = Some (n + offset m k + x)%nat) /\
  (forall k x, (forall k0, k = (i + k0)%nat -> (npar m k0 <= x)%nat) -> pm' (k, x) = pm (k, x)) /\
  (forall k x, (x < npar m k)%nat -> ip' (n + offset m k + x)%nat = Some (i + k, x)%nat) /\
  (forall y, (y < n \/ n + total m <= y)%nat -> ip' y = ip y) /\
  (forall k, (k < length m)%nat -> mm' (i + k)%nat = Some (n + offset m k, npar m k)%nat) /\
  (forall k, (k < i \/ i + length m <= k)%nat -> mm' k = mm k).
Proof.
  induction m as [|p m IH]; intros i n mm pm ip n' mm' pm' ip' H; cbn [map_parts] in H.
  - injection H as _ <- <- <-. unfold npar. split; [|split; [|split; [|split; [|split]]]]; auto.
    + intros k x L. destruct k; cbn in L; lia.
    + intros k x L. destruct k; cbn in L; lia.
    + cbn. intros k L. lia.
  - destruct (map_pars i 0 n (cp_npars p) pm ip) as [pm1 ip1] eqn:E. apply map_pars_ok in E. destruct E as [P Q].
    apply IH in H. clear IH. destruct H as (H1 & H2 & H3 & H4 & H5 & H6).
    split; [|split; [|split; [|split; [|split]]]].
    + intros [|k] x L.
      * rewrite Nat.add_0_r, offset_0, H2.
        2:{ intros k0 E0. lia. }
        rewrite P. cbn [fst snd]. rewrite Nat.eqb_refl. cbn [andb Nat.leb]. unfold npar in L. cbn [nth_error] in L.
        assert (Nat.ltb x (0 + cp_npars p) = true) as -> by (apply Nat.ltb_lt; lia). f_equal. lia.
      * rewrite offset_S. replace (i + S k)%nat with (S i + k)%nat by lia. rewrite H1; [f_equal; lia|exact L].
    + intros k x L. rewrite H2.
      2:{ intros k0 E0. apply (L (S k0)). lia. }
      rewrite P. cbn [fst snd]. destruct (Nat.eqb_spec k i) as [->|]; cbn [andb]; [|reflexivity].
      pose proof (L 0%nat ltac:(lia)) as L0. unfold npar in L0. cbn [nth_error] in L0.
      assert (Nat.ltb x (0 + cp_npars p) = false) as -> by (apply Nat.ltb_ge; lia). now rewrite andb_false_r.
    + intros [|k] x L.
      * rewrite offset_0. unfold npar in L. cbn [nth_error] in L. rewrite H4 by lia. rewrite Q.
        assert (Nat.leb n (n + 0 + x) = true) as -> by (apply Nat.leb_le; lia).
        assert (Nat.ltb (n + 0 + x) (n + cp_npars p) = true) as -> by (apply Nat.ltb_lt; lia). cbn [andb]. do 2 f_equal; lia.
      * rewrite offset_S. replace (n + (cp_npars p + offset m k) + x)%nat with (n + cp_npars p + offset m k + x)%nat by lia.
        rewrite H3; [do 2 f_equal; lia|exact L].
    + intros y L. rewrite total_cons in L. rewrite H4 by lia. rewrite Q.
      destruct (Nat.leb_spec n y), (Nat.ltb_spec y (n + cp_npars p)); cbn [andb]; try reflexivity; lia.
    + intros [|k] L.
      * rewrite Nat.add_0_r, H6 by lia. unfold set1. rewrite Nat.eqb_refl, offset_0. unfold npar. cbn. do 2 f_equal; lia.
      * rewrite offset_S. replace (i + S k)%nat with (S i + k)%nat by lia. cbn [length] in L.
        rewrite H5 by lia. unfold npar. cbn [nth_error]. do 2 f_equal; lia.
    + intros k L. cbn [length] in L. rewrite H6 by lia. unfold set1.
      destruct (Nat.eqb_spec k i); [lia|reflexivity].
Qed.

(** *** Finite sums *)
Lemma rsum_ext n f g : (forall k, (k < n)%nat -> f k = g k) -> rsum n f = rsum n g.
Proof. induction n as [|n IH]; intros H; cbn [rsum]; [reflexivity|]. rewrite IH, H; auto with arith. Qed.
Lemma rsum_zero n f : (forall k, (k < n)%nat -> f k = 0) -> rsum n f = 0.
Proof. induction n as [|n IH]; intros H; cbn [rsum]; [reflexivity|]. rewrite IH, H by auto with arith. ring. Qed.
Lemma rsum_plus n f g : rsum n (fun k => f k + g k) = rsum n f + rsum n g.
Proof. induction n as [|n IH]; cbn [rsum]; [ring|]. rewrite IH. ring. Qed.
Lemma rsum_scal n c f : rsum n (fun k => c * f k) = c * rsum n f.
Proof. induction n as [|n IH]; cbn [rsum]; [ring|]. rewrite IH. ring. Qed.
Lemma rsum_scal_r n c f : rsum n (fun k => f k * c) = rsum n f * c.
Proof. induction n as [|n IH]; cbn [rsum]; [ring|]. rewrite IH. ring. Qed.
Lemma rsum_split a b f : rsum (a + b) f = rsum a f + rsum b (fun k => f (a + k)%nat).
Proof.
  induction b as [|b IH]; [rewrite Nat.add_0_r; cbn; ring|].
  rewrite Nat.add_succ_r. cbn [rsum]. rewrite IH. ring.
Qed.
Lemma rsum_swap n m f : rsum n (fun a => rsum m (fun b => f a b)) = rsum m (fun b => rsum n (fun a => f a b)).
Proof.
  induction n as [|n IH]; cbn [rsum].
  - symmetry. now apply rsum_zero.
  - rewrite IH. now rewrite <- rsum_plus.
Qed.
(** A sum whose terms vanish outside [s, s + l). *)
Lemma rsum_block n s l f : (s + l <= n)%nat -> (forall k, (k < n)%nat -> (k < s \/ s + l <= k)%nat -> f k = 0) ->
  rsum n f = rsum l (fun k => f (s + k)%nat).
Proof.
  intros L H. replace n with (s + (l + (n - s - l)))%nat by lia.
  rewrite rsum_split, rsum_split. rewrite (rsum_zero s), (rsum_zero (n - s - l)); [ring| |].
  - intros k K. apply H; lia.
  - intros k K. apply H; lia.
Qed.
Lemma rsum_one n i f : (i < n)%nat -> (forall k, (k < n)%nat -> k <> i -> f k = 0) -> rsum n f = f i.
Proof.
  intros L H. rewrite (rsum_block n i 1) by (try lia; intros; apply H; lia). cbn [rsum]. rewrite Nat.add_0_r. ring.
Qed.

Lemma offset_le m p : (p < length m)%nat -> (offset m p + npar m p <= total m)%nat.
Proof.
  revert p. induction m as [|x m IH]; intros p L; cbn [length] in L; [lia|].
  destruct p as [|p].
  - rewrite offset_0, total_cons. unfold npar. cbn [nth_error]. lia.
  - rewrite offset_S, total_cons. change (npar (x :: m) (S p)) with (npar m p). specialize (IH p ltac:(lia)). lia.
Qed.
Lemma offset_sep m p q : (p < q)%nat -> (q <= length m)%nat -> (offset m p + npar m p <= offset m q)%nat.
Proof.
  revert p q. induction m as [|x m IH]; intros p q L L2; cbn [length] in L2; [lia|].
  destruct q as [|q]; [lia|]. rewrite offset_S. destruct p as [|p].
  - rewrite offset_0. unfold npar. cbn [nth_error]. lia.
  - rewrite offset_S. change (npar (x :: m) (S p)) with (npar m p). specialize (IH p q ltac:(lia) ltac:(lia)). lia.
Qed.
Lemma npar_lt m p x : (x < npar m p)%nat -> (p < length m)%nat.
Proof.
  unfold npar. destruct (nth_error m p) eqn:E; [|lia]. intros _. apply nth_error_Some. congruence.
Qed.
(** Every parameter number belongs to exactly one part. *)
Lemma number_exists m n : (n < total m)%nat -> exists p x, (x < npar m p)%nat /\ n = (offset m p + x)%nat.
Proof.
  revert n. induction m as [|y m IH]; intros n L; [cbn in L; lia|]. rewrite total_cons in L.
  destruct (Nat.lt_ge_cases n (cp_npars y)) as [K|K].
  - exists 0%nat, n. split; [exact K|]. now rewrite offset_0.
  - destruct (IH (n - cp_npars y)%nat ltac:(lia)) as (p & x & H1 & H2). exists (S p), x.
    split; [exact H1|]. rewrite offset_S. lia.
Qed.
Lemma number_inj m p q x y : (x < npar m p)%nat -> (y < npar m q)%nat -> (offset m p + x = offset m q + y)%nat -> p = q /\ x = y.
Proof.
  intros Hx Hy E. pose proof (npar_lt _ _ _ Hx). pose proof (npar_lt _ _ _ Hy).
  destruct (Nat.lt_trichotomy p q) as [L|[->|L]].
  - pose proof (offset_sep m p q L ltac:(lia)). lia.
  - split; [reflexivity|lia].
  - pose proof (offset_sep m q p L ltac:(lia)). lia.
Qed.

(** Two-point positivity gives the Cauchy-Schwarz bound. *)
Definition psd (n : nat) (v : nat -> nat -> R) : Prop :=
  forall x : nat -> R, 0 <= rsum n (fun a => rsum n (fun b => x a * v a b * x b)).
Definition sym (n : nat) (v : nat -> nat -> R) : Prop := forall a b, (a < n)%nat -> (b < n)%nat -> v a b = v b a.

Lemma two_point n v i j s t : (i < n)%nat -> (j < n)%nat -> i <> j -> psd n v ->
  0 <= s * s * v i i + s * t * (v i j + v j i) + t * t * v j j.
Proof.
  intros Li Lj Ne H. set (x := fun a => if Nat.eqb a i then s else if Nat.eqb a j then t else 0).
  specialize (H x).
  assert (Xi : x i = s) by (unfold x; now rewrite Nat.eqb_refl).
  assert (Xj : x j = t). { unfold x. rewrite (proj2 (Nat.eqb_neq j i)) by auto. now rewrite Nat.eqb_refl. }
  assert (Xo : forall a, a <> i -> a <> j -> x a = 0).
  { intros a A1 A2. unfold x. now rewrite (proj2 (Nat.eqb_neq a i)), (proj2 (Nat.eqb_neq a j)). }
  clearbody x.
  assert (S2 : forall f : nat -> R, rsum n (fun b => f b * x b) = f i * s + f j * t).
  { intros f. rewrite (rsum_ext n _ (fun b => (if Nat.eqb b i then f b * x b else 0) + (if Nat.eqb b j then f b * x b else 0))).
    - rewrite rsum_plus. rewrite (rsum_one n i), (rsum_one n j).
      + rewrite !Nat.eqb_refl, Xi, Xj. reflexivity.
      + exact Lj.
      + intros k _ K. now rewrite (proj2 (Nat.eqb_neq k j)).
      + exact Li.
      + intros k _ K. now rewrite (proj2 (Nat.eqb_neq k i)).
    - intros k _. destruct (Nat.eqb_spec k i), (Nat.eqb_spec k j); subst; try congruence; try ring.
      rewrite (Xo k); auto. ring. }
  rewrite (rsum_ext n _ (fun a => (v a i * s + v a j * t) * x a)) in H.
  - rewrite S2 in H. lra.
  - intros a _. rewrite (S2 (fun b => x a * v a b)). ring.
Qed.
Lemma psd_diag n v i : (i < n)%nat -> psd n v -> 0 <= v i i.
Proof.
  intros L H. specialize (H (fun a => if Nat.eqb a i then 1 else 0)).
  rewrite (rsum_one n i) in H; [| exact L |].
  - rewrite (rsum_one n i) in H; [|exact L|].
    + rewrite !Nat.eqb_refl in H. lra.
    + intros k _ K. rewrite (proj2 (Nat.eqb_neq k i)); auto. ring.
  - intros k _ K. apply rsum_zero. intros b _. rewrite (proj2 (Nat.eqb_neq k i)); auto. ring.
Qed.
Lemma cauchy n v i j : (i < n)%nat -> (j < n)%nat -> psd n v -> sym n v -> v i j * v i j <= v i i * v j j.
Proof.
  intros Li Lj H Sy. destruct (Nat.eq_dec i j) as [->|Ne]; [lra|].
  pose proof (psd_diag n v i Li H) as Pi. pose proof (psd_diag n v j Lj H) as Pj.
  pose proof (Sy i j Li Lj) as Sij.
  destruct (Req_dec (v j j) 0) as [Z|Z].
  - (* then v i j = 0 *)
    destruct (Req_dec (v i j) 0) as [Z2|Z2]; [rewrite Z2; nra|].
    pose proof (two_point n v i j 1 (- (v i i + 1) / (2 * v i j)) Li Lj Ne H) as T.
    rewrite <- Sij, Z in T. set (t := - (v i i + 1) / (2 * v i j)) in T.
    assert (E : t * v i j = - (v i i + 1) / 2) by (unfold t; field; exact Z2). lra.
  - pose proof (two_point n v i j (v j j) (- v i j) Li Lj Ne H) as T. rewrite <- Sij in T.
    assert (0 < v j j) by lra.
    assert (0 <= v j j * (v i i * v j j - v i j * v i j)) by nra. nra.
Qed.

(** *** Positions of the free parameters *)
Definition positions (free : list bool) : list nat := filter (fun i => nth i free false) (seq 0 (length free)).

Lemma positions_snoc l b : positions (l ++ [b]) = positions l ++ (if b then [length l] else []).
Proof.
  unfold positions. rewrite app_length, Nat.add_1_r, seq_S, filter_app. cbn [filter Nat.add]. f_equal.
  - apply filter_ext_in. intros i Hi. apply in_seq in Hi. rewrite app_nth1; [reflexivity|lia].
  - rewrite app_nth2, Nat.sub_diag by lia. reflexivity.
Qed.
Lemma nfree_snoc l b : nfree (l ++ [b]) = (nfree l + (if b then 1 else 0))%nat.
Proof. unfold nfree. rewrite filter_app, app_length. destruct b; reflexivity. Qed.
Lemma positions_length l : length (positions l) = nfree l.
Proof.
  induction l as [|b l IH] using rev_ind; [reflexivity|].
  rewrite positions_snoc, app_length, nfree_snoc, IH. destruct b; reflexivity.
Qed.
Lemma rank_snoc l b k : (k <= length l)%nat -> rank (l ++ [b]) k = rank l k.
Proof. intros L. unfold rank. rewrite firstn_app. replace (k - length l)%nat with 0%nat by lia. cbn [firstn]. now rewrite app_nil_r. Qed.
Lemma rank_all l : rank l (length l) = nfree l.
Proof. unfold rank, nfree. now rewrite firstn_all. Qed.
Lemma positions_ok l a : (a < nfree l)%nat ->
  (nth a (positions l) 0 < length l)%nat /\ nth (nth a (positions l) 0%nat) l false = true /\ rank l (nth a (positions l) 0%nat) = a.
Proof.
  induction l as [|b l IH] using rev_ind; [cbn; lia|].
  rewrite nfree_snoc, positions_snoc, app_length. cbn [length]. intros L.
  destruct (Nat.lt_ge_cases a (nfree l)) as [K|K].
  - rewrite app_nth1 by (rewrite positions_length; lia). destruct (IH K) as (H1 & H2 & H3).
    split; [lia|]. split; [now rewrite app_nth1|]. rewrite rank_snoc; [exact H3|lia].
  - destruct b; [|lia]. rewrite app_nth2 by (rewrite positions_length; lia). rewrite positions_length.
    replace (a - nfree l)%nat with 0%nat by lia. cbn [nth].
    split; [lia|]. split. { rewrite app_nth2, Nat.sub_diag by lia. reflexivity. }
    rewrite rank_snoc, rank_all by lia. lia.
Qed.
Lemma rsum_positions l f : (forall k, (k < length l)%nat -> nth k l false = false -> f k = 0) ->
  rsum (length l) f = rsum (nfree l) (fun a => f (nth a (positions l) 0%nat)).
Proof.
  induction l as [|b l IH] using rev_ind; intros H; [reflexivity|].
  rewrite app_length, nfree_snoc, positions_snoc. cbn [length]. rewrite Nat.add_1_r. cbn [rsum].
  assert (E : rsum (length l) f = rsum (nfree l) (fun a => f (nth a (positions l) 0%nat))).
  { apply IH. intros k K N. apply H; [rewrite app_length; cbn; lia|]. now rewrite app_nth1. }
  rewrite E. destruct b.
  - rewrite Nat.add_1_r. cbn [rsum]. f_equal.
    + apply rsum_ext. intros k K. rewrite app_nth1; [reflexivity|]. rewrite positions_length. exact K.
    + rewrite app_nth2 by (rewrite positions_length; lia). rewrite positions_length, Nat.sub_diag. reflexivity.
  - rewrite Nat.add_0_r. rewrite (H (length l)).
    + rewrite Rplus_0_r. apply rsum_ext. intros k K. now rewrite app_nil_r.
    + rewrite app_length. cbn. lia.
    + rewrite app_nth2, Nat.sub_diag by lia. reflexivity.
Qed.

(** *** transform *)
Lemma upd_len {A} (l : list A) i a : length (upd l i a) = length l.
Proof. revert i. induction l; intros [|i]; cbn; auto. Qed.
Lemma upd_get {A} (l : list A) i a : (i < length l)%nat -> nth_error (upd l i a) i = Some a.
Proof. revert i. induction l as [|x l IH]; intros [|i] L; cbn in *; try lia; auto. apply IH. lia. Qed.
Lemma upd_other {A} (l : list A) i j a : i <> j -> nth_error (upd l i a) j = nth_error l j.
Proof. revert i j. induction l as [|x l IH]; intros [|i] [|j] N; cbn; auto; congruence. Qed.
Lemma set_block_in g s l sub x y : (x < l)%nat -> (y < l)%nat -> set_block g s l sub (s + x) (s + y) = sub x y.
Proof.
  intros X Y. unfold set_block.
  rewrite (proj2 (Nat.leb_le s (s + x))), (proj2 (Nat.ltb_lt (s + x) (s + l))),
    (proj2 (Nat.leb_le s (s + y))), (proj2 (Nat.ltb_lt (s + y) (s + l))) by lia.
  cbn [andb]. f_equal; lia.
Qed.
Lemma set_block_out g s l sub a b : (a < s \/ s + l <= a \/ b < s \/ s + l <= b)%nat -> set_block g s l sub a b = g a b.
Proof.
  intros H. unfold set_block.
  destruct (Nat.leb_spec s a), (Nat.ltb_spec a (s + l)), (Nat.leb_spec s b), (Nat.ltb_spec b (s + l)); cbn [andb]; try reflexivity; lia.
Qed.

Section Convert.
Variable F : Type.
Variable deriv : nat -> F -> F -> list R -> result (nat -> nat -> R).
Variable trans : nat -> F -> F -> list R -> result (list R).

Lemma convert_ok c i o m0 : (forall k, (k < length m0)%nat -> mmap c k = Some (offset m0 k, npar m0 k)) ->
  forall l m g, NoDup l -> Forall (fun k => (k < length m0)%nat /\ (0 < npar m0 k)%nat) l -> length m = length m0 ->
  exists m' g', convert deriv trans c i o (map Z.of_nat l) m g = (m', Ok g') /\ length m' = length m /\
    (forall k p, nth_error m k = Some p -> nth_error m' k = Some (if in_dec Nat.eq_dec k l then snd (step_part deriv trans i o p) else p)) /\
    (forall k p, In k l -> nth_error m k = Some p -> forall x y, (x < npar m0 k)%nat -> (y < npar m0 k)%nat ->
       g' (offset m0 k + x)%nat (offset m0 k + y)%nat = fst (step_part deriv trans i o p) x y) /\
    (forall a b, (forall k, In k l -> ~ (offset m0 k <= a < offset m0 k + npar m0 k /\ offset m0 k <= b < offset m0 k + npar m0 k)%nat) ->
       g' a b = g a b).
Proof.
  intros MM. induction l as [|k l IH]; intros m g ND FA Len.
  - exists m, g. cbn [map convert]. split; [reflexivity|]. split; [reflexivity|]. split; [auto|]. split; [contradiction|auto].
  - inversion ND as [|? ? Nk ND']; subst. inversion FA as [|? ? [K1 K2] FA']; subst.
    cbn [map convert]. rewrite (proj2 (Z.ltb_ge _ 0)) by lia. rewrite Nat2Z.id, MM by exact K1.
    rewrite (proj2 (Nat.eqb_neq _ 0)) by lia.
    destruct (nth_error m k) as [p|] eqn:Ek.
    2:{ apply nth_error_None in Ek. lia. }
    assert (PG : pyget m (Z.of_nat k) = Ok p).
    { unfold pyget. rewrite (proj2 (Z.ltb_ge (Z.of_nat k) 0)) by lia. cbn zeta.
      rewrite (proj2 (Z.ltb_ge (Z.of_nat k) 0)) by lia. rewrite (proj2 (Z.leb_gt (Z.of_nat (length m)) (Z.of_nat k))) by lia.
      cbn [orb]. rewrite Nat2Z.id, Ek. reflexivity. }
    rewrite PG. destruct (step_part deriv trans i o p) as [sub p'] eqn:Es.
    destruct (IH (upd m k p') (set_block g (offset m0 k) (npar m0 k) sub) ND' FA') as (m' & g' & E & L' & H1 & H2 & H3).
    { rewrite upd_len. exact Len. }
    assert (Lk : (k < length m)%nat) by lia.
    exists m', g'. split; [exact E|]. split; [rewrite L'; apply upd_len|]. split; [|split].
    + intros j q Ej. destruct (Nat.eq_dec j k) as [->|Ne].
      * rewrite Ek in Ej. injection Ej as <-. rewrite (H1 k p' ltac:(now rewrite upd_get by exact Lk)).
        destruct (in_dec Nat.eq_dec k l); [contradiction|]. destruct (in_dec Nat.eq_dec k (k :: l)) as [_|N]; [now rewrite Es|].
        exfalso. apply N. now left.
      * rewrite (H1 j q). 2:{ rewrite upd_other; auto. }
        destruct (in_dec Nat.eq_dec j l) as [I|I], (in_dec Nat.eq_dec j (k :: l)) as [I2|I2]; try reflexivity.
        { exfalso. apply I2. now right. }
        { exfalso. destruct I2 as [->|I2]; auto. }
    + intros j q Ij Ej x y X Y. destruct (Nat.eq_dec j k) as [->|Ne].
      * rewrite Ek in Ej. injection Ej as <-. rewrite Es. cbn [fst]. rewrite H3; [now apply set_block_in|].
        intros j Ij2 [A _]. pose proof (proj1 (Forall_forall _ _) FA' _ Ij2) as [J1 J2].
        assert (j <> k) by (intros ->; contradiction).
        destruct (Nat.lt_trichotomy j k) as [L|[L|L]]; [|lia|].
        { pose proof (offset_sep m0 j k L ltac:(lia)). lia. }
        { pose proof (offset_sep m0 k j L ltac:(lia)). lia. }
      * destruct Ij as [<-|Ij]; [congruence|]. apply (H2 j q Ij); auto. rewrite upd_other; auto.
    + intros a b N. rewrite H3; [|intros j Ij; apply N; now right].
      apply set_block_out. specialize (N k (or_introl eq_refl)). lia.
Qed.
End Convert.

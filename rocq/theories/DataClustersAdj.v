(** Proofs about adjacency and combination of clusters. *)
From Coq Require Import Sorted.
From Verif Require Import DataClustersSpec DataClustersProofs.
Open Scope Z_scope.

Lemma touch_iff cs i : touch cs i = true <-> touching cs i.
Proof.
  unfold touch, touching. split.
  - destruct (nth_error cs i) as [[lo hi]|] eqn:E1; [|discriminate].
    destruct (nth_error cs (S i)) as [[lo' hi']|] eqn:E2; [|discriminate].
    intros H. apply Z.eqb_eq in H. exists lo, hi, lo', hi'. cbn in H. repeat split; auto; lia.
  - intros (lo & hi & lo' & hi' & -> & -> & ->). cbn. apply Z.eqb_eq; lia.
Qed.

Lemma touch_range cs i : touch cs i = true -> (S i < length cs)%nat.
Proof.
  unfold touch. destruct (nth_error cs i); [|discriminate].
  destruct (nth_error cs (S i)) eqn:E; [|discriminate]. intros _.
  apply nth_error_Some. congruence.
Qed.

Lemma skip_gap_ok cs : forall fuel l, (length cs <= fuel + l)%nat ->
  (l <= skip_gap fuel cs l)%nat /\
  (forall i, (l <= i < skip_gap fuel cs l)%nat -> touch cs i = false) /\
  ((length cs <= S (skip_gap fuel cs l))%nat \/ touch cs (skip_gap fuel cs l) = true).
Proof.
  induction fuel as [|f IH]; intros l H; cbn [skip_gap].
  - repeat split; [lia|lia|left; lia].
  - destruct (Nat.ltb_spec l (length cs - 1)) as [Hl|Hl]; cbn [andb].
    + destruct (touch cs l) eqn:T; cbn [negb].
      * repeat split; [lia|lia|right; exact T].
      * destruct (IH (S l) ltac:(lia)) as (A & B & C). repeat split; [lia| |exact C].
        intros i Hi. destruct (Nat.eq_dec i l) as [->|]; [exact T|apply B; lia].
    + repeat split; [lia|lia|left; lia].
Qed.

Lemma grow_run_ok cs : forall fuel l, (length cs <= fuel + l)%nat ->
  (l <= grow_run fuel cs l)%nat /\
  (forall i, (l <= i < grow_run fuel cs l)%nat -> touch cs i = true) /\
  touch cs (grow_run fuel cs l) = false.
Proof.
  induction fuel as [|f IH]; intros l H; cbn [grow_run].
  - repeat split; [lia|lia|].
    destruct (touch cs l) eqn:T; [apply touch_range in T; lia|reflexivity].
  - destruct (Nat.ltb_spec l (length cs - 1)) as [Hl|Hl]; cbn [andb].
    + destruct (touch cs l) eqn:T.
      * destruct (IH (S l) ltac:(lia)) as (A & B & C). repeat split; [lia| |exact C].
        intros i Hi. destruct (Nat.eq_dec i l) as [->|]; [exact T|apply B; lia].
      * repeat split; [lia|lia|exact T].
    + repeat split; [lia|lia|].
      destruct (touch cs l) eqn:T; [apply touch_range in T; lia|reflexivity].
Qed.

Definition mrun (cs : list (Z * Z)) (l r : nat) : Prop :=
  (l < r)%nat /\ (forall i, (l <= i < r)%nat -> touch cs i = true) /\
  (forall i, S i = l -> touch cs i = false) /\ touch cs r = false.

Lemma mrun_iff cs l r : mrun cs l r <-> maximal_run cs l r.
Proof.
  unfold mrun, maximal_run. split.
  - intros (A & B & C & D). repeat split; auto.
    + pose proof (touch_range cs (r - 1) (B (r - 1)%nat ltac:(lia))). lia.
    + intros i Hi. apply touch_iff. auto.
    + intros i Hi T. apply touch_iff in T. rewrite C in T; [discriminate|auto].
    + intros T. apply touch_iff in T. congruence.
  - intros (A & _ & B & C & D). repeat split; auto.
    + intros i Hi. apply touch_iff. auto.
    + intros i Hi. destruct (touch cs i) eqn:T; [|reflexivity].
      apply touch_iff in T. exfalso. eapply C; eauto.
    + destruct (touch cs r) eqn:T; [|reflexivity]. apply touch_iff in T. contradiction.
Qed.

Lemma adj_loop_ok cs : forall fuel l, (length cs <= fuel + l)%nat ->
  (forall i, S i = l -> touch cs i = false) ->
  forall a b, In (a, b) (adj_loop fuel cs l) <-> (l <= a)%nat /\ mrun cs a b.
Proof.
  induction fuel as [|f IH]; intros l H Hl a b; cbn [adj_loop].
  - split; [intros []|]. intros (A & B & C & _).
    pose proof (touch_range cs a (C a ltac:(lia))). lia.
  - destruct (Nat.ltb_spec l (length cs - 1)) as [Hlt|Hlt].
    + set (l' := skip_gap (length cs) cs l). set (r := grow_run (length cs) cs l').
      destruct (skip_gap_ok cs (length cs) l ltac:(lia)) as (S1 & S2 & S3). fold l' in S1, S2, S3.
      destruct (grow_run_ok cs (length cs) l' ltac:(lia)) as (G1 & G2 & G3). fold r in G1, G2, G3.
      assert (Hl' : forall i, S i = l' -> touch cs i = false).
      { intros i Hi. destruct (Nat.lt_ge_cases i l); [apply Hl; lia|apply S2; lia]. }
      rewrite in_app_iff, (IH (S r) ltac:(lia)).
      2:{ intros i Hi. replace i with r by lia. exact G3. }
      split.
      * intros [Hin|[A B]].
        -- destruct (Nat.ltb_spec l' r); [|destruct Hin].
           destruct Hin as [E|[]]. injection E as <- <-.
           split; [lia|]. repeat split; auto.
        -- split; [lia|exact B].
      * intros [A (B & C & D & E)].
        assert (l' <= a)%nat.
        { destruct (Nat.lt_ge_cases a l'); [|lia].
          specialize (C a ltac:(lia)).
          rewrite S2 in C by lia. discriminate. }
        destruct (Nat.lt_ge_cases r a) as [Hra|Hra].
        { right. split; [lia|]. repeat split; auto. }
        assert (a = l').
        { destruct (Nat.eq_dec a l') as [|N]; [assumption|].
          assert (T : touch cs (a - 1) = false) by (apply D; lia).
          rewrite G2 in T by lia. discriminate. }
        subst a. left.
        assert (T : touch cs l' = true) by (apply C; lia).
        assert (l' < r)%nat.
        { destruct (Nat.eq_dec l' r) as [E'|]; [rewrite <- E' in G3; congruence|lia]. }
        destruct (Nat.ltb_spec l' r); [|lia]. left. f_equal.
        destruct (Nat.lt_trichotomy r b) as [L|[Q|L]]; [|exact Q|].
        -- rewrite C in G3 by lia. discriminate.
        -- rewrite G2 in E by lia. discriminate.
    + split; [intros []|]. intros (A & B & C & _).
      pose proof (touch_range cs a (C a ltac:(lia))). lia.
Qed.

Lemma adj_loop_sorted cs : forall fuel l, (length cs <= fuel + l)%nat ->
  (forall i, S i = l -> touch cs i = false) ->
  StronglySorted (fun p q => (snd p < fst q)%nat) (adj_loop fuel cs l).
Proof.
  induction fuel as [|f IH]; intros l H Hl; cbn [adj_loop]; [constructor|].
  destruct (Nat.ltb_spec l (length cs - 1)) as [Hlt|Hlt]; [|constructor].
  set (l' := skip_gap (length cs) cs l). set (r := grow_run (length cs) cs l').
  destruct (skip_gap_ok cs (length cs) l ltac:(lia)) as (S1 & S2 & S3). fold l' in S1, S2, S3.
  destruct (grow_run_ok cs (length cs) l' ltac:(lia)) as (G1 & G2 & G3). fold r in G1, G2, G3.
  assert (Hr : forall i, S i = S r -> touch cs i = false).
  { intros i Hi. replace i with r by lia. exact G3. }
  specialize (IH (S r) ltac:(lia) Hr).
  destruct (Nat.ltb_spec l' r); cbn [app]; [|exact IH].
  constructor; [exact IH|]. apply Forall_forall. intros [a b] Hin.
  apply (adj_loop_ok cs f (S r)) in Hin; [|lia|exact Hr]. cbn. lia.
Qed.

Lemma adjacent_runs_spec cs a b : In (a, b) (adjacent_runs cs) <-> maximal_run cs a b.
Proof.
  unfold adjacent_runs. rewrite (adj_loop_ok cs (length cs) 0) by lia.
  rewrite mrun_iff. split; [tauto|]. intros; split; [lia|assumption].
Qed.

Lemma adjacent_runs_sorted cs :
  StronglySorted (fun p q => (snd p < fst q)%nat) (adjacent_runs cs).
Proof. apply adj_loop_sorted; lia. Qed.

(** * Combining *)
Lemma check_group_ok cs c first : forall k i, (first <= i)%nat ->
  check_group cs c first i k = Ok tt <->
  (forall j, (i <= j < i + k)%nat -> touch cs j = true /\
     exists a, nth_error c (j - first) = Some a /\ nth_error c (S (j - first)) = Some (S a)).
Proof.
  induction k as [|k IH]; intros i Hi; cbn [check_group].
  - split; [intros _ j Hj; lia|reflexivity].
  - replace (i + 1 - first)%nat with (S (i - first)) by lia. split.
    + destruct (nth_error c (S (i - first))) as [b|] eqn:Eb; [|discriminate].
      destruct (nth_error c (i - first)) as [a|] eqn:Ea; [|discriminate].
      destruct (Z.eqb_spec (Z.of_nat b - 1) (Z.of_nat a)); cbn [negb]; [|discriminate].
      destruct (nth_error cs (S i)) as [q|] eqn:Eq; [|discriminate].
      destruct (nth_error cs i) as [p|] eqn:Ep; [|discriminate].
      destruct (Z.eqb_spec (fst q - snd p) 1) as [Ht|]; cbn [negb]; [|discriminate].
      intros H. rewrite IH in H by lia. intros j Hj.
      destruct (Nat.eq_dec j i) as [->|]; [|apply H; lia].
      split.
      * unfold touch. rewrite Ep, Eq. apply Z.eqb_eq; exact Ht.
      * exists a. rewrite Ea, Eb. split; [reflexivity|f_equal; lia].
    + intros H. destruct (H i ltac:(lia)) as (T & a & Ea & Eb).
      rewrite Ea, Eb. replace (Z.of_nat (S a) - 1 =? Z.of_nat a) with true
        by (symmetry; apply Z.eqb_eq; lia). cbn [negb].
      unfold touch in T. destruct (nth_error cs i); [|discriminate].
      destruct (nth_error cs (S i)); [|discriminate]. rewrite T. cbn [negb].
      apply IH; [lia|]. intros j Hj. apply H. lia.
Qed.

Lemma nth_seq_error f m i a : nth_error (seq f m) i = Some a -> a = (f + i)%nat /\ (i < m)%nat.
Proof.
  intros H. assert (i < m)%nat.
  { assert (Hn : nth_error (seq f m) i <> None) by congruence.
    apply nth_error_Some in Hn. rewrite seq_length in Hn; exact Hn. }
  apply nth_error_nth with (d := 0%nat) in H. rewrite seq_nth in H by lia. lia.
Qed.

Lemma nth_error_seq f m i : (i < m)%nat -> nth_error (seq f m) i = Some (f + i)%nat.
Proof. intros H. rewrite (nth_error_nth' _ 0%nat) by (rewrite seq_length; lia). now rewrite seq_nth. Qed.

Lemma last_seq f m d : last (seq f (S m)) d = (f + m)%nat.
Proof. rewrite seq_S. apply last_last. Qed.

(** An accepted increasing group is a run of consecutive touching clusters. *)
Lemma last_nth A (l : list A) d : l <> [] -> nth_error l (length l - 1) = Some (last l d).
Proof.
  induction l as [|a l IH]; [congruence|]. intros _. destruct l as [|b l]; [reflexivity|].
  cbn [length] in *. replace (S (S (length l)) - 1)%nat with (S (S (length l) - 1)) by lia.
  cbn [nth_error]. rewrite IH by discriminate. reflexivity.
Qed.

Lemma group_is_seq cs first rest :
  let c := first :: rest in
  NoDup c -> (first <= last c first)%nat ->
  check_group cs c first first (last c first - first) = Ok tt ->
  exists m, c = seq first (S m) /\ last c first = (first + m)%nat /\
            forall i, (first <= i < first + m)%nat -> touch cs i = true.
Proof.
  intros c Hnd Hle Hck. rewrite check_group_ok in Hck by lia.
  set (m := (last c first - first)%nat) in *.
  assert (Hn : forall j, (j <= m)%nat -> nth_error c j = Some (first + j)%nat).
  { induction j as [|j IHj]; intros Hj; [cbn; f_equal; lia|].
    destruct (Hck (first + j)%nat ltac:(lia)) as (_ & a & E1 & E2).
    replace (first + j - first)%nat with j in E1, E2 by lia.
    rewrite IHj in E1 by lia. injection E1 as <-. rewrite E2. f_equal; lia. }
  assert (Hlen : length c = S m).
  { assert (Hl : nth_error c (length c - 1) = Some (last c first)) by (apply last_nth; discriminate).
    specialize (Hn m ltac:(lia)). replace (first + m)%nat with (last c first) in Hn by lia.
    assert (Hlt : (m < length c)%nat) by (apply nth_error_Some; congruence).
    assert (E : m = (length c - 1)%nat).
    { apply (NoDup_nth_error c); auto. congruence. }
    cbn [length] in *. lia. }
  exists m. split; [|split; [lia|]].
  - apply nth_ext with (d := 0%nat) (d' := 0%nat); [now rewrite seq_length|].
    intros k Hk. rewrite Hlen in Hk. rewrite seq_nth by lia.
    apply nth_error_nth. apply Hn. lia.
  - intros i Hi. apply Hck. lia.
Qed.

Lemma increasing_first_last g c first rest :
  increasing_groups g -> In c g -> c = first :: rest -> (first <= last c first)%nat.
Proof.
  intros Hg Hin E. pose proof (last_nth _ c first ltac:(subst; discriminate)) as Hl.
  destruct rest as [|b rest].
  - subst c. cbn. lia.
  - assert (first < last c first)%nat; [|lia].
    apply (Hg c Hin 0%nat (length c - 1)%nat first (last c first)); auto; subst c; cbn [length]; [lia|reflexivity].
Qed.

Lemma NoDup_app_inv A (l1 l2 : list A) : NoDup (l1 ++ l2) ->
  NoDup l1 /\ NoDup l2 /\ forall a, In a l1 -> ~ In a l2.
Proof.
  induction l1 as [|a l1 IH]; cbn; intros H; [repeat split; auto; constructor|].
  inversion H as [|? ? H1 H2]; subst. destruct (IH H2) as (A1 & A2 & A3).
  repeat split; auto.
  - constructor; auto. intros Hin; apply H1; apply in_or_app; auto.
  - intros b [->|Hb]; [intros Hin; apply H1; apply in_or_app; auto|auto].
Qed.

Lemma NoDup_app A (l1 l2 : list A) : NoDup l1 -> NoDup l2 ->
  (forall a, In a l1 -> ~ In a l2) -> NoDup (l1 ++ l2).
Proof.
  induction 1 as [|a l1 H1 H2 IH]; intros N2 D; cbn; [exact N2|].
  constructor.
  - intros Hin. apply in_app_or in Hin. destruct Hin as [Hin|Hin]; [contradiction|].
    apply (D a); [now left|exact Hin].
  - apply IH; [exact N2|]. intros b Hb. apply D. now right.
Qed.

Lemma in_seq_concat g f m i : In (seq f (S m)) g -> (f <= i <= f + m)%nat -> In i (concat g).
Proof. intros H Hi. apply in_concat. exists (seq f (S m)). split; [exact H|apply in_seq; lia]. Qed.

Lemma combine_loop_sound : forall g cs cs',
  combine_loop cs g = (cs', Ok tt) -> NoDup (concat g) -> increasing_groups g ->
  length cs' = length cs /\
  (forall c, In c g -> exists f m lo hi lo' hi', c = seq f (S m) /\
     nth_error cs f = Some (lo, hi) /\ nth_error cs (f + m) = Some (lo', hi') /\
     nth_error cs' f = Some (lo, hi') /\
     forall i, (f <= i < f + m)%nat -> touch cs i = true) /\
  (forall i, (forall c, In c g -> hd_error c <> Some i) -> nth_error cs' i = nth_error cs i).
Proof.
  induction g as [|c g IH]; intros cs cs' H Hnd Hinc; cbn [combine_loop] in H.
  - injection H as <-. split; [reflexivity|split; [intros c []|reflexivity]].
  - destruct c as [|first rest]; [discriminate|].
    set (c := first :: rest) in *.
    cbn [concat] in Hnd. destruct (NoDup_app_inv _ _ _ Hnd) as (N1 & N2 & N3).
    assert (Hfl : (first <= last c first)%nat).
    { apply (increasing_first_last (c :: g) c first rest Hinc); [left; reflexivity|reflexivity]. }
    destruct (check_group cs c first first (last c first - first)) as [u|e] eqn:Eck; [|discriminate].
    destruct u. destruct (group_is_seq cs first rest N1 Hfl Eck) as (m & Ec & El & Ht). fold c in Ec, El.
    rewrite El in H.
    destruct (nth_error cs first) as [[lo hi]|] eqn:E1; [|discriminate].
    destruct (nth_error cs (first + m)) as [[lo' hi']|] eqn:E2; [|discriminate].
    assert (Hinc' : increasing_groups g).
    { intros c2 Hc2. apply Hinc. now right. }
    destruct (IH _ _ H N2 Hinc') as (L & G & O). rewrite upd_length in L.
    assert (Hf : forall f2 m2 i, In (seq f2 (S m2)) g -> (f2 <= i <= f2 + m2)%nat -> i <> first).
    { intros f2 m2 i Hin Hi ->. apply (N3 first); [rewrite Ec; apply in_seq; lia|].
      eapply in_seq_concat; eauto. }
    split; [exact L|]. split.
    + intros c2 [<-|Hin].
      * exists first, m, lo, hi, lo', hi'. repeat split; auto.
        rewrite O.
        -- rewrite nth_error_upd, Nat.eqb_refl, E1. reflexivity.
        -- intros c2 Hc2 Hh. destruct (G c2 Hc2) as (f2 & m2 & _ & _ & _ & _ & -> & _).
           cbn in Hh. injection Hh as ->. apply (Hf first m2 first Hc2); [lia|reflexivity].
      * destruct (G c2 Hin) as (f2 & m2 & a & b & a' & b' & -> & F1 & F2 & F3 & F4).
        rewrite nth_error_upd in F1, F2.
        destruct (Nat.eqb_spec f2 first) as [E|N]; [exfalso; apply (Hf f2 m2 f2 Hin); [lia|exact E]|].
        destruct (Nat.eqb_spec (f2 + m2) first) as [E|N'];
          [exfalso; apply (Hf f2 m2 (f2 + m2)%nat Hin); [lia|exact E]|].
        exists f2, m2, a, b, a', b'. repeat split; auto.
        intros i Hi. specialize (F4 i Hi). unfold touch in F4 |- *.
        rewrite !nth_error_upd in F4.
        destruct (Nat.eqb_spec i first) as [E|_]; [exfalso; apply (Hf f2 m2 i Hin); [lia|exact E]|].
        destruct (Nat.eqb_spec (S i) first) as [E|_]; [exfalso; apply (Hf f2 m2 (S i) Hin); [lia|exact E]|].
        exact F4.
    + intros i Hi. rewrite O.
      * rewrite nth_error_upd. destruct (Nat.eqb_spec i first) as [->|]; [|reflexivity].
        exfalso. apply (Hi c); [left; reflexivity|reflexivity].
      * intros c2 Hc2. apply Hi. now right.
Qed.

(** ** Deletion *)
Definition kept (k n : nat) (idxs : list nat) : list nat :=
  filter (fun i => negb (existsb (Nat.eqb i) idxs)) (seq k n).

Lemma delete_from_map A (d : A) idxs : forall l k,
  delete_from k l idxs = map (fun i => nth (i - k) l d) (kept k (length l) idxs).
Proof.
  unfold kept. induction l as [|a l IH]; intros k; [reflexivity|].
  cbn [delete_from length seq filter].
  assert (E : map (fun i => nth (i - S k) l d) (filter (fun i => negb (existsb (Nat.eqb i) idxs)) (seq (S k) (length l))) =
              map (fun i => nth (i - k) (a :: l) d) (filter (fun i => negb (existsb (Nat.eqb i) idxs)) (seq (S k) (length l)))).
  { apply map_ext_in. intros i Hi. apply filter_In in Hi. destruct Hi as [Hi _]. apply in_seq in Hi.
    replace (i - k)%nat with (S (i - S k)) by lia. reflexivity. }
  destruct (existsb (Nat.eqb k) idxs); cbn [negb].
  - rewrite IH. exact E.
  - cbn [map]. rewrite Nat.sub_diag. cbn [nth]. f_equal. rewrite IH. exact E.
Qed.

Lemma existsb_eqb_in i idxs : existsb (Nat.eqb i) idxs = true <-> In i idxs.
Proof.
  rewrite existsb_exists. split.
  - intros (j & Hj & E). apply Nat.eqb_eq in E. now subst.
  - intros H. exists i. split; [exact H|apply Nat.eqb_refl].
Qed.

Lemma in_kept i n idxs : In i (kept 0 n idxs) <-> (i < n)%nat /\ ~ In i idxs.
Proof.
  unfold kept. rewrite filter_In, in_seq. split.
  - intros [H1 H2]. split; [lia|]. intros Hin. apply existsb_eqb_in in Hin. rewrite Hin in H2. discriminate.
  - intros [H1 H2]. split; [lia|]. destruct (existsb (Nat.eqb i) idxs) eqn:E; [|reflexivity].
    apply existsb_eqb_in in E. contradiction.
Qed.

Lemma seq_sorted k n : StronglySorted lt (seq k n).
Proof.
  revert k; induction n as [|n IH]; intros k; cbn; constructor; [apply IH|].
  apply Forall_forall. intros i Hi. apply in_seq in Hi. lia.
Qed.

Lemma filter_sorted A (R : A -> A -> Prop) f l : StronglySorted R l -> StronglySorted R (filter f l).
Proof.
  induction 1 as [|a l H IH Hf]; cbn; [constructor|].
  destruct (f a); [constructor; auto|exact IH].
  apply Forall_forall. intros b Hb. apply filter_In in Hb. rewrite Forall_forall in Hf. apply Hf, Hb.
Qed.

Lemma sorted_nth_lt l : StronglySorted lt l -> forall i j a b, (i < j)%nat ->
  nth_error l i = Some a -> nth_error l j = Some b -> (a < b)%nat.
Proof.
  induction 1 as [|c l H IH Hf]; intros i j a b Hij Hi Hj; [destruct i; discriminate|].
  destruct j as [|j]; [lia|]. cbn in Hj. destruct i as [|i]; cbn in Hi.
  - injection Hi as <-. rewrite Forall_forall in Hf. apply Hf. eapply nth_error_In; eauto.
  - apply (IH i j a b); auto. lia.
Qed.

Lemma wf_map n g ps : StronglySorted lt ps ->
  (forall p, In p ps -> 0 <= fst (g p) <= snd (g p) /\ snd (g p) < n) ->
  (forall p q, In p ps -> In q ps -> (p < q)%nat -> snd (g p) < fst (g q)) ->
  well_formed n (map g ps).
Proof.
  intros Hs H1 H2. split.
  - intros k lo hi Hk. rewrite nth_error_map in Hk.
    destruct (nth_error ps k) as [p|] eqn:E; [|discriminate]. cbn in Hk. injection Hk as Ek.
    apply nth_error_In in E. specialize (H1 p E). rewrite Ek in H1. cbn in H1. lia.
  - intros i j lo hi lo' hi' Hij Hi Hj. rewrite nth_error_map in Hi, Hj.
    destruct (nth_error ps i) as [p|] eqn:Ep; [|discriminate]. cbn in Hi. injection Hi as Ei.
    destruct (nth_error ps j) as [q|] eqn:Eq; [|discriminate]. cbn in Hj. injection Hj as Ej.
    pose proof (sorted_nth_lt _ Hs _ _ _ _ Hij Ep Eq).
    apply nth_error_In in Ep, Eq. specialize (H2 p q Ep Eq H). rewrite Ei, Ej in H2. exact H2.
Qed.

Lemma kept_length n idxs : NoDup idxs -> (forall i, In i idxs -> (i < n)%nat) ->
  (length (kept 0 n idxs) + length idxs = n)%nat.
Proof.
  intros Hnd Hr.
  assert (P : Permutation (kept 0 n idxs ++ idxs) (seq 0 n)).
  { apply NoDup_Permutation.
    - apply NoDup_app; [unfold kept; apply NoDup_filter, seq_NoDup|exact Hnd|].
      intros i Hi. apply in_kept in Hi. tauto.
    - apply seq_NoDup.
    - intros i. rewrite in_app_iff, in_kept, in_seq. split.
      + intros [[H _]|H]; [lia|specialize (Hr i H); lia].
      + intros H. destruct (in_dec Nat.eq_dec i idxs); [now right|left; split; [lia|assumption]]. }
  apply Permutation_length in P. now rewrite app_length, seq_length in P.
Qed.

(** Points of a run of touching clusters form one interval. *)
Lemma run_covers cs n : well_formed n cs -> forall m f lo hi lo' hi' i,
  nth_error cs f = Some (lo, hi) -> nth_error cs (f + m) = Some (lo', hi') ->
  (forall j, (f <= j < f + m)%nat -> touch cs j = true) ->
  lo <= i <= hi' -> covered cs i.
Proof.
  intros W. induction m as [|m IH]; intros f lo hi lo' hi' i H1 H2 Ht Hi.
  - rewrite Nat.add_0_r, H1 in H2. injection H2 as <- <-.
    exists lo, hi. split; [eapply nth_error_In; eauto|lia].
  - destruct (Z.le_gt_cases i hi) as [Hle|Hgt].
    + exists lo, hi. split; [eapply nth_error_In; eauto|lia].
    + pose proof (Ht f ltac:(lia)) as T. apply touch_iff in T.
      destruct T as (a & b & a' & b' & E1 & E2 & E3). rewrite H1 in E1. injection E1 as <- <-.
      apply (IH (S f) a' b' lo' hi' i); auto.
      * rewrite <- H2. f_equal. lia.
      * intros j Hj. apply Ht. lia.
      * lia.
Qed.

Lemma wf_le n cs i j lo hi lo' hi' : well_formed n cs -> (i <= j)%nat ->
  nth_error cs i = Some (lo, hi) -> nth_error cs j = Some (lo', hi') -> lo <= lo' /\ hi <= hi'.
Proof.
  intros [W1 W2] Hij Hi Hj. destruct (Nat.eq_dec i j) as [->|].
  - rewrite Hi in Hj. injection Hj as -> ->. lia.
  - pose proof (W2 i j _ _ _ _ ltac:(lia) Hi Hj). pose proof (W1 _ _ _ Hi). pose proof (W1 _ _ _ Hj). lia.
Qed.

Lemma has_dup_false l : has_dup l = false <-> NoDup l.
Proof.
  unfold has_dup. rewrite negb_false_iff, Nat.eqb_eq. split.
  - intros H. assert (E : forall l : list nat, (length (nodup Nat.eq_dec l) <= length l)%nat).
    { induction l0 as [|a l0 IH]; cbn; [lia|]. destruct (in_dec _ _ _); cbn; lia. }
    induction l as [|a l IH]; [constructor|]. cbn in H.
    destruct (in_dec Nat.eq_dec a l).
    + specialize (E l). lia.
    + constructor; [assumption|]. apply IH. cbn in H. lia.
  - intros H. rewrite nodup_fixed_point; auto.
Qed.

Lemma concat_tl_sub (g : list (list nat)) i : In i (concat (map (@tl nat) g)) ->
  exists c, In c g /\ In i (tl c).
Proof.
  intros H. apply in_concat in H. destruct H as (t & Ht & Hi). apply in_map_iff in Ht.
  destruct Ht as (c & <- & Hc). eauto.
Qed.

Lemma NoDup_concat_tl (g : list (list nat)) : NoDup (concat g) -> NoDup (concat (map (@tl nat) g)).
Proof.
  induction g as [|c g IH]; cbn; intros H; [constructor|].
  destruct (NoDup_app_inv _ _ _ H) as (A & B & C).
  apply NoDup_app; auto.
  - destruct c; cbn; [constructor|]. inversion A; assumption.
  - intros i Hi Hin. apply (C i).
    + destruct c; cbn in Hi; [destruct Hi|now right].
    + apply concat_tl_sub in Hin. destruct Hin as (c2 & Hc2 & Hi2). apply in_concat.
      exists c2. split; [exact Hc2|]. destruct c2; cbn in Hi2; [destruct Hi2|now right].
Qed.

(** Two groups sharing an element are the same group. *)
Lemma group_unique (g : list (list nat)) c1 c2 i : NoDup (concat g) -> In c1 g -> In c2 g ->
  In i c1 -> In i c2 -> c1 = c2.
Proof.
  induction g as [|c g IH]; cbn; intros H H1 H2 I1 I2; [destruct H1|].
  destruct (NoDup_app_inv _ _ _ H) as (A & B & C).
  destruct H1 as [<-|H1], H2 as [<-|H2]; auto.
  - exfalso. apply (C i I1). apply in_concat; eauto.
  - exfalso. apply (C i I2). apply in_concat; eauto.
Qed.

Record combine_facts (n : Z) (s s' : dc) (g : list (list nat)) : Prop := {
  CF_wf : well_formed n (clusters s');
  CF_cov : forall i, covered (clusters s') i <-> covered (clusters s) i;
  CF_len : (length (clusters s') + length (concat (map (@tl nat) g)) = length (clusters s))%nat;
  CF_x : xs s' = xs s; CF_y : ys s' = ys s; CF_o : order s' = order s; CF_r : res s' = res s;
  CF_c : cur s' = cur s; CF_lc : lastc s' = lastc s; CF_lp : lastp s' = lastp s;
  CF_st : st s' = st s;
  CF_runs : forall c, In c g -> exists f m, c = seq f (S m) /\
     forall i, (f <= i < f + m)%nat -> touching (clusters s) i;
  CF_cs : exists cs1 : list (Z * Z),
     clusters s' = map (fun p => nth p cs1 (0, 0))
                       (kept 0 (length (clusters s)) (concat (map (@tl nat) g))) /\
     length cs1 = length (clusters s) /\
     (forall c, In c g -> exists f m lo hi lo' hi', c = seq f (S m) /\
       nth_error (clusters s) f = Some (lo, hi) /\ nth_error (clusters s) (f + m) = Some (lo', hi') /\
       nth_error cs1 f = Some (lo, hi') /\
       forall i, (f <= i < f + m)%nat -> touch (clusters s) i = true) /\
     (forall i, (forall c, In c g -> hd_error c <> Some i) -> nth_error cs1 i = nth_error (clusters s) i) /\
     (forall p, In p (kept 0 (length (clusters s)) (concat (map (@tl nat) g))) ->
       exists e lo hi lo' hi', (p <= e < length (clusters s))%nat /\ nth_error (clusters s) p = Some (lo, hi) /\
       nth_error (clusters s) e = Some (lo', hi') /\ nth p cs1 (0, 0) = (lo, hi') /\
       (forall j, (p <= j < e)%nat -> touch (clusters s) j = true) /\
       (forall j, (p < j <= e)%nat -> In j (concat (map (@tl nat) g))))
}.

Lemma combine_ok n s g s' :
  well_formed n (clusters s) -> increasing_groups g ->
  combine_clusters s g = (s', Ok tt) -> combine_facts n s s' g.
Proof.
  intros W Hinc H. unfold combine_clusters in H.
  destruct (np_array2 g) as [rows|] eqn:Enp; [|discriminate].
  destruct (has_dup (concat g)) eqn:Edup; [discriminate|].
  apply has_dup_false in Edup.
  destruct (combine_loop (clusters s) g) as [cs1 rr] eqn:Eloop.
  destruct rr as [[]|]; [|discriminate].
  set (del := concat (map (@tl nat) g)) in *.
  destruct (Nat.eqb (length del) 0); [discriminate|]. injection H as <-.
  destruct (combine_loop_sound g _ _ Eloop Edup Hinc) as (L & G & O).
  set (cs := clusters s) in *.
  assert (Hdel : forall i, In i del -> exists f m, In (seq f (S m)) g /\ (f < i <= f + m)%nat).
  { intros i Hi. apply concat_tl_sub in Hi. destruct Hi as (c & Hc & Hi).
    destruct (G c Hc) as (f & m & _ & _ & _ & _ & -> & _). exists f, m. split; [exact Hc|].
    cbn in Hi. apply in_seq in Hi. lia. }
  assert (Hdel2 : forall i f m, In (seq f (S m)) g -> (f < i <= f + m)%nat -> In i del).
  { intros i f m Hc Hi. apply in_concat. exists (seq (S f) m). split; [|apply in_seq; lia].
    apply in_map_iff. exists (seq f (S m)). split; [reflexivity|exact Hc]. }
  assert (Hdelr : forall i, In i del -> (i < length cs)%nat).
  { intros i Hi. destruct (Hdel i Hi) as (f & m & Hc & Hi2).
    destruct (G _ Hc) as (f' & m' & lo & hi & lo' & hi' & E & F1 & F2 & F3 & F4).
    assert (f' = f /\ m' = m).
    { assert (length (seq f (S m)) = length (seq f' (S m'))) by now rewrite E. rewrite !seq_length in H.
      cbn in E. injection E as E _. lia. }
    destruct H as [-> ->].
    assert (f + m < length cs)%nat by (apply nth_error_Some; congruence). lia. }
  (* shape of a kept position *)
  assert (K : forall p, In p (kept 0 (length cs) del) ->
     exists e lo hi lo' hi', (p <= e < length cs)%nat /\ nth_error cs p = Some (lo, hi) /\
       nth_error cs e = Some (lo', hi') /\ nth p cs1 (0, 0) = (lo, hi') /\
       (forall j, (p <= j < e)%nat -> touch cs j = true) /\
       (forall j, (p < j <= e)%nat -> In j del)).
  { intros p Hp. apply in_kept in Hp. destruct Hp as [Hp1 Hp2].
    destruct (nth_error cs p) as [[lo hi]|] eqn:Ep; [|apply nth_error_None in Ep; lia].
    destruct (in_dec Nat.eq_dec p (concat g)) as [Hin|Hnin].
    - apply in_concat in Hin. destruct Hin as (c & Hc & Hpc).
      destruct (G c Hc) as (f & m & a & b & a' & b' & -> & F1 & F2 & F3 & F4).
      apply in_seq in Hpc.
      assert (p = f).
      { destruct (Nat.eq_dec p f); [assumption|]. exfalso. apply Hp2. apply (Hdel2 p f m Hc). lia. }
      subst f. rewrite Ep in F1. injection F1 as <- <-.
      exists (p + m)%nat, lo, hi, a', b'.
      assert (p + m < length cs)%nat by (apply nth_error_Some; congruence).
      repeat split; auto; try lia.
      + apply nth_error_nth with (d := (0, 0)) in F3. exact F3.
      + intros j Hj. apply (Hdel2 j p m Hc). lia.
    - exists p, lo, hi, lo, hi. repeat split; auto; try lia.
      assert (E : nth_error cs1 p = Some (lo, hi)).
      { rewrite O; [exact Ep|]. intros c Hc Hh. apply Hnin. apply in_concat. exists c.
        split; [exact Hc|]. destruct c; [discriminate|]. injection Hh as ->. now left. }
      apply nth_error_nth with (d := (0, 0)) in E. exact E. }
  assert (Ecs : np_delete cs1 del = map (fun p => nth p cs1 (0, 0)) (kept 0 (length cs) del)).
  { unfold np_delete. rewrite (delete_from_map _ (0, 0)), L. apply map_ext. intros i.
    now rewrite Nat.sub_0_r. }
  constructor; cbn [clusters xs ys order res cur lastc lastp st]; fold cs; auto.
  - rewrite Ecs. apply wf_map.
    + apply filter_sorted, seq_sorted.
    + intros p Hp. destruct (K p Hp) as (e & lo & hi & lo' & hi' & A & B & C & D & _). rewrite D. cbn.
      pose proof (wf_le _ _ _ _ _ _ _ _ W (proj1 A) B C). destruct W as [W1 _].
      pose proof (W1 _ _ _ B). pose proof (W1 _ _ _ C). lia.
    + intros p q Hp Hq Hpq.
      destruct (K p Hp) as (e & lo & hi & lo' & hi' & A & B & C & D & _ & E). rewrite D.
      destruct (K q Hq) as (e2 & lo2 & hi2 & lo2' & hi2' & A2 & B2 & C2 & D2 & _ & E2). rewrite D2. cbn.
      assert (e < q)%nat.
      { destruct (Nat.lt_ge_cases e q); [assumption|]. exfalso.
        apply in_kept in Hq. apply (proj2 Hq). apply E. lia. }
      destruct W as [_ W2]. apply (W2 e q lo' hi' lo2 hi2); auto.
  - intros i. rewrite Ecs. split.
    + intros (lo & hi & Hin & Hi). apply in_map_iff in Hin. destruct Hin as (p & Ep & Hp).
      destruct (K p Hp) as (e & a & b & a' & b' & A & B & C & D & E & _).
      rewrite D in Ep. injection Ep as <- <-.
      apply (run_covers cs n W (e - p) p a b a' b' i B); auto.
      * replace (p + (e - p))%nat with e by lia. exact C.
      * intros j Hj. apply E. lia.
    + intros (lo & hi & Hin & Hi). apply In_nth_error in Hin. destruct Hin as [p Hp].
      assert (Hpl : (p < length cs)%nat) by (apply nth_error_Some; congruence).
      destruct (in_dec Nat.eq_dec p del) as [Hd|Hnd].
      * destruct (Hdel p Hd) as (f & m & Hc & Hfm).
        assert (Hkf : In f (kept 0 (length cs) del)).
        { apply in_kept. split; [lia|]. intros Hf. destruct (Hdel f Hf) as (f2 & m2 & Hc2 & Hf2).
          assert (E : seq f2 (S m2) = seq f (S m)).
          { apply (group_unique g _ _ f Edup Hc2 Hc); apply in_seq; lia. }
          cbn in E. injection E as E _. lia. }
        destruct (G _ Hc) as (f' & m' & a & b & a' & b' & E & F1 & F2 & F3 & F4).
        assert (f' = f /\ m' = m) as [-> ->].
        { assert (length (seq f (S m)) = length (seq f' (S m'))) by now rewrite E. rewrite !seq_length in H.
          cbn in E. injection E as E _. lia. }
        exists a, b'. split.
        -- apply in_map_iff. exists f. split; [|exact Hkf]. apply nth_error_nth with (d := (0,0)) in F3. exact F3.
        -- pose proof (wf_le _ _ f p _ _ _ _ W ltac:(lia) F1 Hp).
           pose proof (wf_le _ _ p (f + m) _ _ _ _ W ltac:(lia) Hp F2). lia.
      * assert (Hk : In p (kept 0 (length cs) del)) by (apply in_kept; auto).
        destruct (K p Hk) as (e & a & b & a' & b' & A & B & C & D & _ & _).
        rewrite Hp in B. injection B as <- <-.
        exists lo, b'. split; [apply in_map_iff; exists p; auto|].
        pose proof (wf_le _ _ p e _ _ _ _ W ltac:(lia) Hp C). lia.
  - rewrite Ecs, map_length. apply kept_length; [apply NoDup_concat_tl; exact Edup|exact Hdelr].
  - intros c Hc. destruct (G c Hc) as (f & m & _ & _ & _ & _ & -> & _ & _ & _ & Ht).
    exists f, m. split; [reflexivity|]. intros i Hi. apply touch_iff. auto.
  - exists cs1. auto 6.
Qed.

Lemma touch_upd_other cs f c i : i <> f -> S i <> f -> touch (upd cs f c) i = touch cs i.
Proof.
  intros H1 H2. unfold touch. rewrite !nth_error_upd.
  destruct (Nat.eqb_spec i f); [contradiction|]. destruct (Nat.eqb_spec (S i) f); [contradiction|]. reflexivity.
Qed.

Lemma combine_loop_complete : forall g cs, NoDup (concat g) ->
  (forall c, In c g -> exists f m, c = seq f (S m) /\ (f + m < length cs)%nat /\
     forall i, (f <= i < f + m)%nat -> touch cs i = true) ->
  exists cs', combine_loop cs g = (cs', Ok tt).
Proof.
  induction g as [|c g IH]; intros cs Hnd H; cbn [combine_loop]; [eauto|].
  destruct (H c ltac:(now left)) as (f & m & -> & Hl & Ht).
  cbn [concat] in Hnd. destruct (NoDup_app_inv _ _ _ Hnd) as (N1 & N2 & N3).
  destruct (seq f (S m)) as [|f0 rest] eqn:Es; [discriminate|].
  assert (f0 = f) by (cbn in Es; congruence). subst f0. rewrite <- Es in *. clear rest Es.
  rewrite last_seq. replace (f + m - f)%nat with m by lia.
  assert (Eck : check_group cs (seq f (S m)) f f m = Ok tt).
  { apply check_group_ok; [lia|]. intros j Hj. split; [apply Ht; lia|].
    exists j. rewrite !nth_error_seq by lia. split; f_equal; lia. }
  rewrite Eck.
  destruct (nth_error cs f) as [[lo hi]|] eqn:E1; [|apply nth_error_None in E1; lia].
  destruct (nth_error cs (f + m)) as [[lo' hi']|] eqn:E2; [|apply nth_error_None in E2; lia].
  apply IH; [exact N2|]. intros c Hc. destruct (H c ltac:(now right)) as (f2 & m2 & -> & Hl2 & Ht2).
  exists f2, m2. split; [reflexivity|]. rewrite upd_length. split; [exact Hl2|].
  intros i Hi. rewrite touch_upd_other; [apply Ht2; lia| |];
    intros E; apply (N3 f); try (apply in_seq; lia); apply (in_seq_concat g f2 m2); auto; lia.
Qed.

Lemma runs_concat_NoDup rs : StronglySorted (fun p q : nat * nat => (snd p < fst q)%nat) rs ->
  (forall a b, In (a, b) rs -> (a < b)%nat) ->
  NoDup (concat (map (fun p => seq (fst p) (snd p + 1 - fst p)) rs)).
Proof.
  induction 1 as [|[a b] rs H IH Hf]; intros Hlt; cbn [map concat]; [constructor|].
  apply NoDup_app; [apply seq_NoDup|apply IH; intros; apply Hlt; now right|].
  intros i Hi Hin. apply in_seq in Hi. cbn in Hi.
  pose proof (Hlt a b ltac:(now left)).
  apply in_concat in Hin. destruct Hin as (c & Hc & Hic). apply in_map_iff in Hc.
  destruct Hc as ([a2 b2] & <- & Hab). apply in_seq in Hic. cbn in Hic.
  rewrite Forall_forall in Hf. specialize (Hf _ Hab). cbn in Hf. lia.
Qed.

Lemma maximal_exists cs e : touch cs e = true -> exists a b, mrun cs a b /\ (a <= e < b)%nat.
Proof.
  intros T.
  assert (L : exists a, (a <= e)%nat /\ (forall i, (a <= i <= e)%nat -> touch cs i = true) /\
                        (forall i, S i = a -> touch cs i = false)).
  { clear -T. induction e as [|e IH].
    - exists 0%nat. repeat split; [lia| |lia]. intros i Hi. replace i with 0%nat by lia. exact T.
    - destruct (touch cs e) eqn:E.
      + destruct (IH eq_refl) as (a & A & B & C). exists a. repeat split; [lia| |exact C].
        intros i Hi. destruct (Nat.eq_dec i (S e)) as [->|]; [exact T|apply B; lia].
      + exists (S e). repeat split; [lia| |].
        * intros i Hi. replace i with (S e) by lia. exact T.
        * intros i Hi. injection Hi as ->. exact E. }
  destruct L as (a & A & B & C).
  destruct (grow_run_ok cs (length cs) e ltac:(lia)) as (G1 & G2 & G3).
  set (b := grow_run (length cs) cs e) in *.
  assert (e < b)%nat.
  { destruct (Nat.eq_dec e b) as [E|]; [rewrite <- E in G3; congruence|lia]. }
  exists a, b. split; [|lia]. split; [lia|]. split; [|split; assumption].
  intros i Hi. destruct (Nat.le_gt_cases i e); [apply B; lia|apply G2; lia].
Qed.

Lemma sorted_consecutive l : StronglySorted lt l -> forall i p q j,
  nth_error l i = Some p -> nth_error l (S i) = Some q -> (p < j < q)%nat -> ~ In j l.
Proof.
  intros Hs i p q j Hp Hq Hj Hin. apply In_nth_error in Hin. destruct Hin as [k Hk].
  pose proof (sorted_nth_lt l Hs) as M.
  destruct (Nat.lt_trichotomy k i) as [L|[->|L]].
  - pose proof (M _ _ _ _ L Hk Hp). lia.
  - rewrite Hp in Hk. injection Hk as ->. lia.
  - destruct (Nat.eq_dec k (S i)) as [->|]; [rewrite Hq in Hk; injection Hk as ->; lia|].
    pose proof (M (S i) k _ _ ltac:(lia) Hq Hk). lia.
Qed.

Lemma wf_hi_inj n cs i j lo hi lo' : well_formed n cs -> nth_error cs i = Some (lo, hi) ->
  nth_error cs j = Some (lo', hi) -> i = j.
Proof.
  intros W Hi Hj. pose proof W as W0. destruct W0 as [W1 _].
  pose proof (W1 _ _ _ Hi). pose proof (W1 _ _ _ Hj).
  eapply (wf_unique n cs i j _ _ hi W Hi Hj); cbn; lia.
Qed.

Lemma combine_adjacent n s rows :
  well_formed n (clusters s) -> find_adjacent_clusters s = Ok rows -> rows <> [] ->
  exists s', combine_clusters s rows = (s', Ok tt) /\ increasing_groups rows /\
             forall i, ~ touching (clusters s') i.
Proof.
  intros W H Hne. unfold find_adjacent_clusters in H.
  set (cs := clusters s) in *.
  set (rs := adjacent_runs cs) in *.
  assert (Hnp : np_array2 (map (fun p => seq (fst p) (snd p + 1 - fst p)) rs) = Ok rows).
  { destruct (st s); [discriminate|exact H|exact H|exact H]. }
  assert (Er : rows = map (fun p => seq (fst p) (snd p + 1 - fst p)) rs).
  { unfold np_array2 in Hnp. destruct (map _ rs); [congruence|].
    destruct (forallb _ _); congruence. }
  rewrite <- Er in Hnp.
  assert (Hrun : forall c, In c rows -> exists f m, c = seq f (S m) /\ (0 < m)%nat /\ mrun cs f (f + m)).
  { intros c Hc. rewrite Er in Hc. apply in_map_iff in Hc. destruct Hc as ([a b] & <- & Hab).
    unfold rs in Hab. apply adjacent_runs_spec in Hab. apply mrun_iff in Hab. cbn [fst snd].
    assert (a < b)%nat by apply Hab.
    exists a, (b - a)%nat. split; [f_equal; lia|]. split; [lia|].
    replace (a + (b - a))%nat with b by lia. exact Hab. }
  assert (Hinc : increasing_groups rows).
  { intros c Hc i j a b Hij Hi Hj. destruct (Hrun c Hc) as (f & m & -> & _).
    apply nth_seq_error in Hi, Hj. lia. }
  assert (Hnd : NoDup (concat rows)).
  { rewrite Er. apply runs_concat_NoDup; [apply adjacent_runs_sorted|].
    intros a b Hab. apply adjacent_runs_spec in Hab. apply Hab. }
  destruct (combine_loop_complete rows cs Hnd) as [cs1 Hloop].
  { intros c Hc. destruct (Hrun c Hc) as (f & m & -> & Hm & M1 & M2 & M3 & M4).
    exists f, m. split; [reflexivity|]. split; [|exact M2].
    pose proof (touch_range cs (f + m - 1) (M2 (f + m - 1)%nat ltac:(lia))). lia. }
  assert (Ec : exists s', combine_clusters s rows = (s', Ok tt)).
  { unfold combine_clusters. rewrite Hnp, (proj2 (has_dup_false _) Hnd). fold cs. rewrite Hloop.
    destruct (Nat.eqb_spec (length (concat (map (@tl nat) rows))) 0) as [E|_]; [|eauto].
    exfalso. destruct rows as [|c rows']; [congruence|].
    destruct (Hrun c ltac:(now left)) as (f & m & -> & Hm & _). cbn in E.
    rewrite app_length, seq_length in E. lia. }
  destruct Ec as [s' Ec]. exists s'. split; [exact Ec|]. split; [exact Hinc|].
  destruct (combine_ok n s rows s' W Hinc Ec).
  destruct CF_cs0 as (cs1' & E1 & L1 & G1 & O1 & K1). fold cs in E1, L1, G1, O1, K1.
  set (del := concat (map (@tl nat) rows)) in *.
  assert (Hdel2 : forall i f m, In (seq f (S m)) rows -> (f < i <= f + m)%nat -> In i del).
  { intros i f m Hc Hi. apply in_concat. exists (seq (S f) m). split; [|apply in_seq; lia].
    apply in_map_iff. exists (seq f (S m)). split; [reflexivity|exact Hc]. }
  intros i (lo & hi & lo' & hi' & T1 & T2 & T3).
  rewrite E1, nth_error_map in T1, T2.
  destruct (nth_error (kept 0 (length cs) del) i) as [p|] eqn:Ep; [|discriminate].
  destruct (nth_error (kept 0 (length cs) del) (S i)) as [q|] eqn:Eq; [|discriminate].
  cbn in T1, T2. injection T1 as T1. injection T2 as T2.
  assert (Hks : StronglySorted lt (kept 0 (length cs) del)) by apply filter_sorted, seq_sorted.
  pose proof (sorted_nth_lt _ Hks i (S i) p q ltac:(lia) Ep Eq) as Hpq.
  pose proof (sorted_consecutive _ Hks i p q) as Hcons.
  pose proof (nth_error_In _ _ Ep) as Hpin. pose proof (nth_error_In _ _ Eq) as Hqin.
  destruct (K1 p Hpin) as (e & a & b & a' & b' & A1 & A2 & A3 & A4 & A5 & A6).
  destruct (K1 q Hqin) as (e2 & c & d & c' & d' & B1 & B2 & B3 & B4 & B5 & B6).
  rewrite T1 in A4. injection A4 as -> ->. rewrite T2 in B4. injection B4 as -> ->.
  apply in_kept in Hpin. apply in_kept in Hqin.
  assert (Heq : (e < q)%nat).
  { destruct (Nat.lt_ge_cases e q); [assumption|]. exfalso. apply (proj2 Hqin). apply A6. lia. }
  assert (Hq : q = S e).
  { destruct (Nat.eq_dec q (S e)) as [|N]; [assumption|exfalso].
    assert (Hd : In (S e) del).
    { destruct (in_dec Nat.eq_dec (S e) del) as [|Hn]; [assumption|exfalso].
      apply (Hcons (S e) Ep Eq); [lia|]. apply in_kept. split; [lia|exact Hn]. }
    apply concat_tl_sub in Hd. destruct Hd as (c0 & Hc0 & Hi0).
    destruct (G1 c0 Hc0) as (f & m & l1 & h1 & l2 & h2 & -> & F1 & F2 & F3 & F4).
    cbn in Hi0. apply in_seq in Hi0.
    destruct (Nat.lt_trichotomy f p) as [Lf|[->|Lf]].
    - apply (proj2 Hpin). apply (Hdel2 p f m Hc0). lia.
    - apply nth_error_nth with (d := (0, 0)) in F3. rewrite T1 in F3. injection F3 as -> ->.
      pose proof (wf_hi_inj _ _ _ _ _ _ _ W A3 F2). lia.
    - apply (Hcons f Ep Eq); [lia|]. apply in_kept. split; [lia|].
      intros Hf. apply concat_tl_sub in Hf. destruct Hf as (c2 & Hc2 & Hf2).
      destruct (G1 c2 Hc2) as (f2 & m2 & _ & _ & _ & _ & -> & _).
      cbn in Hf2. apply in_seq in Hf2.
      assert (E : seq f2 (S m2) = seq f (S m)).
      { apply (group_unique rows _ _ f Hnd Hc2 Hc0); apply in_seq; lia. }
      cbn in E. injection E as E _. lia. }
  subst q.
  assert (Ht : touch cs e = true).
  { apply touch_iff. exists a', b', c, d. repeat split; auto. }
  destruct (maximal_exists cs e Ht) as (f & l & Hm & Hfl).
  assert (Hin : In (seq f (l + 1 - f)) rows).
  { rewrite Er. apply in_map_iff. exists (f, l). split; [reflexivity|].
    apply adjacent_runs_spec. apply mrun_iff. exact Hm. }
  apply (proj2 Hqin). apply (Hdel2 (S e) f (l - f)%nat).
  - replace (S (l - f)) with (l + 1 - f)%nat by lia. exact Hin.
  - lia.
Qed.
